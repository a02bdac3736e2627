(** Properties C73 to C77: the binary files. *)
From Coq Require Import ZArith Ascii String List Bool Lia Sorted.
From Verif Require Import M_Base L_Names L_Kdb L_Bytes S_Pack L_Pack L_Pack2 S_Time L_Time L_Ascii.
From Verif Require Import M_Names M_Lex M_Kdb M_Time M_Bytes M_Pack M_Codepage M_Ascii M_Binary M_Objects S_Binary L_Codepage L_Objects L_Binary.
Import ListNotations.
Open Scope Z_scope.

(** * The examples *)
(** A compression that drops the zeros at the end. *)
Fixpoint drop_zeros (l : list Z) : list Z := match l with b :: l' => if b =? 0 then drop_zeros l' else l | [] => [] end.
Definition toy_gz (b : list Z) : list Z := le 8 (lenZ b) ++ rev (drop_zeros (rev b)).
Definition toy_gunz (c : list Z) : option (list Z) :=
  let r := skipZ 8 c in Some (r ++ zeros (un_le (firstZ 8 c) - lenZ r)).
Definition toy : env := mkEnv toy_gz toy_gunz (fun _ _ => 7) (fun _ => 8) (fun _ _ _ => 9) (fun _ => true) (fun _ _ => true).
Lemma drop_zeros_spec l : exists k, l = repeat 0 k ++ drop_zeros l.
Proof.
  induction l as [|b l [k IH]]; [now exists O|]. cbn. destruct (b =? 0) eqn:E; [|now exists O]. apply Z.eqb_eq in E. subst b.
  exists (S k). cbn. now f_equal.
Qed.
Lemma rev_repeat {A} (x : A) k : rev (repeat x k) = repeat x k.
Proof.
  assert (C : forall k, repeat x k ++ [x] = x :: repeat x k) by (clear; induction k as [|k IH]; cbn; [reflexivity|now rewrite IH]).
  induction k as [|k IH]; cbn; [reflexivity|]. now rewrite IH, C.
Qed.
Lemma toy_lossless : lossless toy.
Proof.
  intros b H. cbn [gz gunz toy]. unfold toy_gz. destruct (drop_zeros_spec (rev b)) as [k E].
  assert (B : b = rev (drop_zeros (rev b)) ++ repeat 0 k).
  { rewrite <- (rev_involutive b) at 1. rewrite E at 1. rewrite rev_app_distr. f_equal. apply rev_repeat. }
  set (r := rev (drop_zeros (rev b))) in *. clearbody r. assert (Lb : lenZ b = lenZ r + Z.of_nat k).
  { rewrite B, lenZ_app. unfold lenZ at 2. now rewrite repeat_length. }
  pose proof (lenZ_nonneg r). destruct pow_40_62 as (A1 & A2 & A3). rewrite A1 in H. split.
  - unfold toy_gunz. rewrite (skipZ_le 8), (firstZ_le 8) by reflexivity. f_equal. rewrite un_le_le.
    change (256 ^ Z.of_nat 8) with (2 * 9223372036854775808). rewrite Z.mod_small by lia.
    rewrite Lb. unfold zeros. replace (Z.to_nat (lenZ r + Z.of_nat k - lenZ r)) with k by lia. symmetry. exact B.
  - rewrite lenZ_app, lenZ_le. rewrite A2. lia.
Qed.
Definition example {V} (s : option sample) (o : smap V) : kdb V := mkKdb ARCH 2 0 (S2L "A description") s o.
Definition empty {V} : kdb V := mkKdb ARCH 2 0 [] None [].
Definition y2000 := mkP 2000 1 (chr 89).
Definition y2002 := mkP 2002 1 (chr 89).
Definition smp3 := mkS y2000 y2002 3.
Lemma in_codepage_ascii s : ascii_text s -> in_codepage s.
Proof.
  intros H. destruct (ascii_oem s H) as [_ <-]. apply text_in_codepage. eapply Forall_impl; [|exact H]. cbn. intros. lia.
Qed.
Ltac is_ascii := apply in_codepage_ascii; repeat (constructor; [split; vm_compute; reflexivity|]); constructor.
Ltac is_clean := repeat (constructor; [vm_compute; discriminate|]); constructor.
Ltac is_name := split; [is_clean|cbn; lia].
Ltac is_sorted := repeat (constructor; [|repeat (constructor; [vm_compute; reflexivity|]); constructor]); constructor.
Ltac storable_by tac :=
  split; [reflexivity|]; split; [split; [discriminate|reflexivity]|]; split; [is_clean|]; split; [cbn; lia|];
  split; [discriminate|]; split; [reflexivity|]; split; [cbn [k_objs map fst]; is_sorted|];
  repeat (constructor; [split; [is_name|tac]|]); constructor.
Definition file_of (x : ending * option (list Z)) : list Z := match snd x with Some f => f | None => [] end.
Lemma file_saved x f : x = (Returned true, Some f) -> f = file_of x.
Proof. now intros ->. Qed.

Lemma yearly y : valid_period (mkP y 1 (chr 89)). Proof. exists 1. split; [constructor|cbn; lia]. Qed.
Lemma smp3_ok : sample_ok smp3.
Proof.
  exists 2%nat. split; [lia|]. split; [apply yearly|]. split; [apply yearly|]. split; [|reflexivity].
  apply (st_S 1 _ (mkP 2001 1 (chr 89))); [apply (fol_next_year 2000 (chr 89) 1); constructor|].
  apply (st_S 0 _ y2002); [apply (fol_next_year 2001 (chr 89) 1); constructor|constructor].
Qed.

(** * C73: the code page *)

(** A text of the code page is converted and comes back; any other makes the conversion throw. *)
Theorem C73_codepage : forall s, clean s ->
  (in_codepage s -> exists t, utf8_to_oem s = Ok t /\ oem_to_utf8 t = s) /\ (~ in_codepage s -> utf8_to_oem s = Throw).
Proof.
  intros s C. split; [|now apply outside_throws]. intros H. destruct (in_codepage_text s H) as (t & _ & U & B). now exists t.
Qed.
(** Any bytes of a file become a text that is saved as these bytes. *)
Theorem C73_bytes : forall t, clean t -> in_codepage (oem_to_utf8 t) /\ utf8_to_oem (oem_to_utf8 t) = Ok t.
Proof. intros t C. split; [now apply text_in_codepage|now apply oem_utf8_oem]. Qed.
(** e acute, a box character, and the euro sign, which has no byte. *)
Example C73_ex :
  oem_to_utf8 (map chr [130; 179]) = map chr [195; 169; 226; 148; 130] /\
  utf8_to_oem (map chr [65; 195; 169; 226; 148; 130]) = Ok (map chr [65; 130; 179]) /\
  utf8_to_oem (map chr [226; 130; 172]) = Throw.
Proof. repeat split; vm_compute; reflexivity. Qed.

(** A comment with any character can be saved: false.  The save throws when the file has been started: what it held
    before is lost, and the new file cannot be loaded. *)
Definition euro : kdb str := example None [(S2L "A", S2L "a comment"); (S2L "B", map chr [226; 130; 172])].
Theorem C73_save_refuted :
  ~ (forall e d, lossless e -> storable (fun _ s => clean s /\ Z.of_nat (length s) < 2 ^ 30) d -> k_smpl d = None ->
     exists file, save comments e false d = (Returned true, Some file)) /\
  exists file, save comments toy false euro = (Threw, Some file) /\
    exists d1, load comments toy file empty = (Returned false, d1) /\ k_objs d1 = [].
Proof.
  split.
  - intros H. destruct (H toy euro toy_lossless) as [file E]; [|reflexivity|].
    { storable_by ltac:(split; [is_clean|reflexivity]). }
    apply (f_equal fst) in E. vm_compute in E. discriminate E.
  - exists (file_of (save comments toy false euro)). split; [vm_compute; reflexivity|]. eexists. split; vm_compute; reflexivity.
Qed.

(** * C74: saved and loaded *)

Lemma storable_sound {V} (cd : codec V) e (P : str -> V -> Prop) d : storable P d ->
  (forall n v, P n v -> good cd e (nb_periods d) n v) -> sample_good cd d -> sound_kdb e cd d.
Proof.
  intros (A & M & C & L & N & B & St & F) G S. split; [|exact S]. repeat (split; [assumption|]). eapply Forall_impl; [|exact F].
  intros x [H1 H2]. split; [exact H1|apply G; exact H2].
Qed.
Lemma no_sample_good {V} (cd : codec V) d : k_smpl d = None -> sample_good cd d.
Proof. intros E. unfold sample_good. now rewrite E. Qed.

(** The databases of each type. *)
Definition comments_ok (d : kdb str) : Prop := storable text_ok d /\ k_smpl d = None.
Definition identities_ok (e : env) (d : kdb str) : Prop := storable (identity_ok e) d /\ k_smpl d = None.
Definition scalars_ok (d : kdb bscalar) : Prop := storable scalar_ok d /\ k_smpl d = None.
Definition equations_ok (e : env) (d : kdb equation) : Prop := storable (equation_ok e) d /\ k_smpl d = None.
Definition variables_ok (d : kdb (list Z)) : Prop :=
  exists s, k_smpl d = Some s /\ sample_fits s /\ storable (variable_ok (s_nb s)) d.
Lemma comments_sound e d : comments_ok d -> sound_kdb e comments d.
Proof. intros [S N]. eapply storable_sound; [exact S| |now apply no_sample_good]. intros n v. now apply text_good. Qed.
Lemma lists_sound e d : comments_ok d -> sound_kdb e lists d.
Proof. intros [S N]. eapply storable_sound; [exact S| |now apply no_sample_good]. intros n v. now apply text_good. Qed.
Lemma identities_sound e d : identities_ok e d -> sound_kdb e identities d.
Proof. intros [S N]. eapply storable_sound; [exact S| |now apply no_sample_good]. intros n v. now apply identity_good. Qed.
Lemma scalars_sound e d : scalars_ok d -> sound_kdb e scalars d.
Proof. intros [S N]. eapply storable_sound; [exact S| |now apply no_sample_good]. intros n v. now apply scalar_good. Qed.
Lemma equations_sound e d : equations_ok e d -> sound_kdb e equations d.
Proof. intros [S N]. eapply storable_sound; [exact S| |now apply no_sample_good]. intros n v. now apply equation_good. Qed.
Lemma variables_sound e d : variables_ok d -> sound_kdb e variables d.
Proof.
  intros (s & Es & F & S). eapply storable_sound; [exact S| |].
  - intros n v H. unfold nb_periods. rewrite Es. apply variable_good; [|exact H]. destruct F as [F _]. apply sample_steps in F. lia.
  - unfold sample_good. rewrite Es. split; [reflexivity|exact F].
Qed.

Theorem C74_comments_lists : forall e compress d, lossless e -> comments_ok d ->
  round_trip comments e compress d /\ round_trip lists e compress d.
Proof.
  intros e c d L H. split; (apply file_round_trip; [exact L|]); [now apply comments_sound|now apply lists_sound].
Qed.
Theorem C74_identities : forall e compress d, lossless e -> identities_ok e d -> round_trip identities e compress d.
Proof. intros e c d L H. apply file_round_trip; [exact L|]. now apply identities_sound. Qed.
Theorem C74_scalars : forall e compress d, lossless e -> scalars_ok d -> round_trip scalars e compress d.
Proof. intros e c d L H. apply file_round_trip; [exact L|]. now apply scalars_sound. Qed.
Theorem C74_variables : forall e compress d, lossless e -> variables_ok d -> round_trip variables e compress d.
Proof. intros e c d L H. apply file_round_trip; [exact L|]. now apply variables_sound. Qed.
Theorem C74_equations : forall e compress d, lossless e -> equations_ok e d -> round_trip equations e compress d.
Proof. intros e c d L H. apply file_round_trip; [exact L|]. now apply equations_sound. Qed.

(** One database of each type, compressed or not; the comment and the instruments have accents. *)
Definition accents : str := oem_to_utf8 (map chr [100; 130; 106; 133; 32; 118; 117; 32; 32; 32; 32; 32; 32; 32; 32; 32; 32; 32; 32; 32]).
Definition cmt_ex : kdb str := example None [(S2L "A", accents); (S2L "BC", S2L "plain")].
Definition scl_ex : kdb bscalar := example None [(S2L "a", mkB 4607182418800017408 1 0); (S2L "b1", mkB 0 (2 ^ 64 - 1) 7)].
Definition var_ex : kdb (list Z) := example (Some smp3) [(S2L "A", [1; 2; 3]); (S2L "BC", [0; 2 ^ 64 - 1; 0]); (S2L "C", [0; 0; 0])].
Definition q_ex : equation :=
  mkQ (S2L "d(A) := c1 * B") 1 2 smp3 (S2L "Estimated") [] accents 20240131 (repeat 1065353216 20).
Definition eqs_ex : kdb equation := example None [(S2L "A", q_ex); (S2L "B", q_ex)].
Lemma accents_ok : in_codepage accents.
Proof. apply text_in_codepage. is_clean. Qed.
Ltac text_by := split; [first [exact accents_ok|is_ascii]|reflexivity].
Lemma cmt_ex_ok : comments_ok cmt_ex.
Proof. split; [|reflexivity]. storable_by text_by. Qed.
Lemma idt_ex_ok : identities_ok toy cmt_ex.
Proof.
  split; [|reflexivity]. storable_by ltac:(split; [vm_compute; discriminate|]; split; [text_by|split; [reflexivity|intros; reflexivity]]).
Qed.
Lemma scl_ex_ok : scalars_ok scl_ex.
Proof. split; [|reflexivity]. storable_by ltac:(repeat split; vm_compute; congruence). Qed.
Lemma var_ex_ok : variables_ok var_ex.
Proof.
  exists smp3. split; [reflexivity|]. split.
  - split; [exact smp3_ok|]. split; [split; reflexivity|]. split; [split; reflexivity|]. vm_compute. discriminate.
  - storable_by ltac:(split; [reflexivity|]; repeat (constructor; [split; [vm_compute; discriminate|vm_compute; reflexivity]|]); constructor).
Qed.
Lemma q_ex_ok name : equation_ok toy name q_ex.
Proof.
  unfold equation_ok. split; [discriminate|]. split; [text_by|]. split; [reflexivity|]. split; [intros; reflexivity|].
  split; [cbn; lia|]. split; [cbn; lia|].
  split; [right; split; [exact smp3_ok|]; split; [cbn; lia|]; split; [cbn; lia|vm_compute; discriminate]|].
  split; [repeat (constructor; [split; vm_compute; reflexivity|]); constructor|]. split; [reflexivity|]. split; [constructor|]. split; [reflexivity|].
  split; [exact accents_ok|]. split; [reflexivity|]. split; [reflexivity|]. split; [cbn; lia|]. split; [reflexivity|].
  repeat (constructor; [lia|]). constructor.
Qed.
Lemma eqs_ex_ok : equations_ok toy eqs_ex.
Proof. split; [|reflexivity]. storable_by ltac:(apply q_ex_ok). Qed.
Example C74_ex : forall compress,
  round_trip comments toy compress cmt_ex /\ round_trip lists toy compress cmt_ex /\ round_trip identities toy compress cmt_ex /\
  round_trip scalars toy compress scl_ex /\ round_trip variables toy compress var_ex /\ round_trip equations toy compress eqs_ex.
Proof.
  intros c. destruct (C74_comments_lists toy c cmt_ex toy_lossless cmt_ex_ok) as [H1 H2].
  pose proof (C74_identities toy c _ toy_lossless idt_ex_ok). pose proof (C74_scalars toy c _ toy_lossless scl_ex_ok).
  pose proof (C74_variables toy c _ toy_lossless var_ex_ok). pose proof (C74_equations toy c _ toy_lossless eqs_ex_ok). auto 10.
Qed.
(** The compression is at work. *)
Example C74_sizes :
  length (file_of (save variables toy false var_ex)) = 631%nat /\ length (file_of (save variables toy true var_ex)) = 620%nat.
Proof. split; vm_compute; reflexivity. Qed.

(** Any sample: false.  The code takes the first byte of the sample, the year modulo 256, for the mark of a sample:
    variables from 2048 are loaded without sample and without values. *)
Definition smp2048 := mkS (mkP 2048 1 (chr 89)) (mkP 2048 1 (chr 89)) 1.
Definition var2048 : kdb (list Z) := example (Some smp2048) [(S2L "A", [5])].
Lemma smp2048_ok : sample_ok smp2048.
Proof. exists O. split; [lia|]. split; [apply yearly|]. split; [apply yearly|]. split; [constructor|reflexivity]. Qed.
Theorem C74_year_refuted :
  ~ (forall e d s, lossless e -> k_smpl d = Some s -> sample_ok s -> 0 < year (s_start s) < 2 ^ 31 -> 0 < year (s_end s) < 2 ^ 31 ->
       storable (variable_ok (s_nb s)) d -> round_trip variables e false d) /\
  load variables toy (file_of (save variables toy false var2048)) empty = (Returned true, mkKdb ARCH 2 0 (S2L "A description") None [(S2L "A", [])]).
Proof.
  split; [|vm_compute; reflexivity].
  intros H. destruct (H toy var2048 smp2048 toy_lossless eq_refl smp2048_ok) as (f & E & R).
  - split; reflexivity.
  - split; reflexivity.
  - storable_by ltac:(split; [reflexivity|]; repeat (constructor; [split; [vm_compute; discriminate|vm_compute; reflexivity]|]); constructor).
  - destruct (R empty) as (d1 & L & _ & Sm & _). rewrite (file_saved _ _ E) in L.
    apply (f_equal (fun x => k_smpl (snd x))) in L. cbn [snd] in L. rewrite Sm in L. vm_compute in L. discriminate L.
Qed.

(** Any description: false.  One of 64 characters is saved without its end. *)
Definition desc64 : kdb str := mkKdb ARCH 2 0 (repeat (chr 88) 64) None [(S2L "A", S2L "text")].
Definition desc65 : kdb str := mkKdb ARCH 2 0 (repeat (chr 88) 65) None [(S2L "A", S2L "text")].
Theorem C74_description_refuted :
  fst (save comments toy false desc64) = Returned true /\
  fst (load comments toy (file_of (save comments toy false desc64)) empty) = Undef /\
  fst (save comments toy false desc65) = Undef.
Proof. repeat split; vm_compute; reflexivity. Qed.

(** Any comment of equation: false.  The comment of an equation is converted twice: one with an accent, which
    [set_comment] holds in the code page of the files, makes the save throw. *)
Definition q_accent : equation :=
  mkQ (S2L "A := B") 0 0 no_sample (map chr [130]) [] [] 0 (repeat 0 20).
Theorem C74_accent_refuted :
  in_codepage (oem_to_utf8 (q_comment q_accent)) /\
  fst (save equations toy false (example None [(S2L "A", q_accent)])) = Threw.
Proof. split; [apply text_in_codepage; is_clean|vm_compute; reflexivity]. Qed.

(** * C75: files that are not whole *)

(** A file cut anywhere is refused, and leaves no object. *)
Theorem C75_truncated : forall e compress, lossless e ->
  (forall d, comments_ok d -> truncation_seen comments e compress d /\ truncation_seen lists e compress d) /\
  (forall d, identities_ok e d -> truncation_seen identities e compress d) /\
  (forall d, scalars_ok d -> truncation_seen scalars e compress d) /\
  (forall d, variables_ok d -> truncation_seen variables e compress d) /\
  (forall d, equations_ok e d -> truncation_seen equations e compress d).
Proof.
  intros e c L. repeat split; intros.
  - apply file_truncation; [exact L|]. now apply comments_sound.
  - apply file_truncation; [exact L|]. now apply lists_sound.
  - apply file_truncation; [exact L|]. now apply identities_sound.
  - apply file_truncation; [exact L|]. now apply scalars_sound.
  - apply file_truncation; [exact L|]. now apply variables_sound.
  - apply file_truncation; [exact L|]. now apply equations_sound.
Qed.
Example C75_ex : truncation_seen variables toy true var_ex /\
  fst (load variables toy (firstn 619 (file_of (save variables toy true var_ex))) empty) = Returned false /\
  fst (load variables toy (firstn 300 (file_of (save variables toy true var_ex))) empty) = Threw.
Proof.
  split; [|split; vm_compute; reflexivity]. destruct (C75_truncated toy true toy_lossless) as (_ & _ & _ & H & _). apply H. exact var_ex_ok.
Qed.

(** Whatever the file, and whatever the objects, a load that returns false leaves no object. *)
Theorem C75_refused : forall V (cd : codec V) e file d0 d1, load cd e file d0 = (Returned false, d1) -> k_objs d1 = [].
Proof.
  intros V cd e file d0 d1 H.
  assert (A : forall names d s d1, load_all cd e d names s = (Returned false, d1) -> k_objs d1 = []).
  { clear. induction names as [|n names IH]; intros d s d1 H; cbn in H; [discriminate|].
    destruct (read_pack e s) as [| |p r]; [injection H as <-; reflexivity|discriminate|]. unfold unpack in H.
    destruct (of_pack cd e (nb_periods d) n p) as [[v|]| | |]; try discriminate; eapply IH; exact H. }
  unfold load in H. destruct (same_bytes (firstZ 11 file) K_LABEL).
  - destruct (kread 344 (skipZ 11 file)) as [[b ?]|]; [|discriminate]. destruct (read_head b) as [h|]; [|discriminate].
    destruct (h_type h =? type_code (c_type cd)); [|injection H as <-; reflexivity].
    unfold load_binary in H. destruct (kread 11 file) as [[lb s]|]; [|injection H as <-; reflexivity].
    destruct (same_bytes lb K_LABEL).
    + destruct (kread 344 s) as [[b' s1]|]; [|discriminate]. destruct (read_head b') as [h'|]; [|discriminate].
      unfold preload in H. destruct (h_type h' =? type_code (c_type cd)); [|discriminate].
      match type of H with context [str_eqb ?a ?b] => destruct (str_eqb a b) end; [|injection H as <-; reflexivity].
      destruct (read_names e _ (h_nb h') s1) as [| |names s2]; [injection H as <-; reflexivity|discriminate|].
      eapply A; exact H.
    + destruct (same_bytes lb K_LABELS || same_bytes lb K_LABELD); [discriminate|injection H as <-; reflexivity].
  - destruct (same_bytes (firstZ 11 file) K_LABELS || same_bytes (firstZ 11 file) K_LABELD); [discriminate|injection H as <-; reflexivity].
Qed.
(** The same of a load that throws: false.  A bad sample in the second equation; the first one stays. *)
Definition q_bad : equation := mkQ (S2L "B := A") 0 0 (mkS y2002 y2000 3) [] [] [] 0 (repeat 0 20).
Definition eqs_bad : kdb equation := example None [(S2L "A", q_ex); (S2L "B", q_bad)].
Theorem C75_thrown_refuted :
  ~ (forall file d0 d1, load equations toy file d0 = (Threw, d1) -> k_objs d1 = []).
Proof.
  intros H. specialize (H (file_of (save equations toy false eqs_bad)) empty).
  assert (E : load equations toy (file_of (save equations toy false eqs_bad)) empty =
    (Threw, mkKdb ARCH 2 0 (S2L "A description") None [(S2L "A", q_ex)])) by (vm_compute; reflexivity).
  specialize (H _ E). discriminate H.
Qed.

(** * C76: some objects of a file *)

(** The names in order and in the file, the file not compressed: exactly these objects are loaded. *)
Theorem C76_selected_partial : forall e names, lossless e -> names <> [] -> StronglySorted (fun a b => str_ltb a b = true) names ->
  (forall d, comments_ok d -> incl names (map fst (k_objs d)) -> selection_loads comments e d names /\ selection_loads lists e d names) /\
  (forall d, identities_ok e d -> incl names (map fst (k_objs d)) -> selection_loads identities e d names) /\
  (forall d, scalars_ok d -> incl names (map fst (k_objs d)) -> selection_loads scalars e d names) /\
  (forall d, variables_ok d -> incl names (map fst (k_objs d)) -> selection_loads variables e d names) /\
  (forall d, equations_ok e d -> incl names (map fst (k_objs d)) -> selection_loads equations e d names).
Proof.
  intros e names L N S. repeat split; intros.
  - eapply (file_selection e L comments d names 0); auto; [now apply comments_sound|discriminate].
  - eapply (file_selection e L lists d names 0); auto; [now apply lists_sound|discriminate].
  - eapply (file_selection e L identities d names 0); auto; [now apply identities_sound|discriminate].
  - eapply (file_selection e L scalars d names _); auto; [now apply scalars_sound|]. intros _ x p I E.
    apply (scalar_size e (fst x) (snd x)); [|exact E]. destruct H as [(_ & _ & _ & _ & _ & _ & _ & F) _].
    rewrite Forall_forall in F. apply (F x I).
  - pose proof H as (s & Es & Fs & (_ & _ & _ & _ & _ & _ & _ & F)).
    eapply (file_selection e L variables d names _); auto; [now apply variables_sound|]. intros _ x p I E.
    apply (variable_size e (s_nb s) (fst x) (snd x)); [|rewrite Forall_forall in F; apply (F x I)|exact E].
    destruct Fs as [Fs _]. apply sample_steps in Fs. lia.
  - eapply (file_selection e L equations d names 0); auto; [now apply equations_sound|discriminate].
Qed.
Example C76_ex : selection_loads variables toy var_ex [S2L "BC"; S2L "C"] /\
  k_objs (snd (load_binary variables toy [S2L "BC"; S2L "C"] (file_of (save variables toy false var_ex)) empty)) =
    [(S2L "BC", [0; 2 ^ 64 - 1; 0]); (S2L "C", [0; 0; 0])].
Proof.
  split; [|vm_compute; reflexivity].
  destruct (C76_selected_partial toy [S2L "BC"; S2L "C"] toy_lossless) as (_ & _ & _ & H & _); [discriminate|is_sorted|].
  apply H; [exact var_ex_ok|]. intros x [<-|[<-|[]]]; cbn; auto.
Qed.
(** A name that is not in the file gets the object of the next name. *)
Theorem C76_absent_refuted :
  load_binary comments toy [S2L "AA"] (file_of (save comments toy false cmt_ex)) empty =
    (Returned true, mkKdb ARCH 2 0 (S2L "A description") None [(S2L "AA", S2L "plain")]).
Proof. vm_compute. reflexivity. Qed.
(** Names out of order: the second one gets what follows the first one; here, the end of the file. *)
Theorem C76_order_refuted :
  load_binary comments toy [S2L "BC"; S2L "A"] (file_of (save comments toy false cmt_ex)) empty =
    (Returned false, mkKdb ARCH 2 0 [] None []).
Proof. vm_compute. reflexivity. Qed.
(** A compressed file: the compressed bytes are taken for the object. *)
Definition zeros_ex : kdb (list Z) := example (Some smp3) [(S2L "A", [0; 0; 0]); (S2L "B", [0; 0; 0])].
Theorem C76_compressed_refuted :
  load variables toy (file_of (save variables toy true zeros_ex)) empty =
    (Returned true, mkKdb ARCH 2 2 (S2L "A description") (Some smp3) [(S2L "A", [0; 0; 0]); (S2L "B", [0; 0; 0])]) /\
  fst (load_binary variables toy [S2L "A"] (file_of (save variables toy true zeros_ex)) empty) = Undef.
Proof. split; vm_compute; reflexivity. Qed.

(** * C77: after a load *)

(** After a load that succeeds, what is saved can be loaded: the architecture is that of the machine. *)
Theorem C77_loaded : forall V (cd : codec V) e wanted file d0 d1, load_binary cd e wanted file d0 = (Returned true, d1) -> k_arch d1 = ARCH.
Proof.
  intros V cd e wanted file d0 d1 H.
  assert (A : forall names d s d1, load_all cd e d names s = (Returned true, d1) -> k_arch d1 = k_arch d).
  { clear. induction names as [|n names IH]; intros d s d1 H; cbn in H; [now injection H as <-|].
    destruct (read_pack e s) as [| |p r]; try discriminate. unfold unpack in H.
    destruct (of_pack cd e (nb_periods d) n p) as [[v|]| | |]; try discriminate; apply IH in H; exact H. }
  assert (B : forall all names d lp len s d1, load_some cd e d all names lp len s = (Returned true, d1) -> k_arch d1 = k_arch d).
  { clear. intros all. induction names as [|n names IH]; intros d lp len s d1 H; cbn in H; [now injection H as <-|].
    destruct (lower_bound all n) as [pos|]; [|eapply IH; exact H].
    match type of H with match ?j with _ => _ end = _ => destruct j as [| |s1] end; try discriminate.
    destruct (read_len s1) as [l0|]; [|discriminate]. cbv zeta in H.
    match type of H with match ?j with _ => _ end = _ => destruct j as [[p s2]|] end; [|discriminate]. unfold unpack in H.
    destruct (of_pack cd e (nb_periods d) n p) as [[v|]| | |]; try discriminate; apply IH in H; exact H. }
  unfold load_binary in H. destruct (kread 11 file) as [[lb s]|]; [|discriminate].
  destruct (same_bytes lb K_LABEL); [|destruct (same_bytes lb K_LABELS || same_bytes lb K_LABELD); discriminate].
  destruct (kread 344 s) as [[b s1]|]; [|discriminate]. destruct (read_head b) as [h|]; [|discriminate].
  unfold preload in H. destruct (h_type h =? type_code (c_type cd)); [|discriminate].
  match type of H with context [str_eqb ?a ?b] => destruct (str_eqb a b) eqn:E end; [|discriminate].
  apply str_eqb_iff in E.
  destruct (read_names e _ (h_nb h) s1) as [| |names s2]; try discriminate.
  destruct wanted as [|w ws]; [apply A in H; congruence|].
  destruct (fixed_size cd); [|apply B in H; congruence]. destruct (read_len s2); [|discriminate]. apply B in H. congruence.
Qed.
Example C77_ex : exists d1, load variables toy (file_of (save variables toy true var_ex)) empty = (Returned true, d1) /\ k_arch d1 = ARCH.
Proof. eexists. split; vm_compute; reflexivity. Qed.

(** After a load that is refused: false.  A file of another machine leaves its architecture in the database; the
    objects put in it afterwards are saved in a file that this machine refuses. *)
Definition windows : list Z := file_of (save comments toy false (mkKdb (S2L "INTEL86 DOS") 2 0 [] None [(S2L "A", S2L "text")])).
Definition refill {V} (d : kdb V) (o : smap V) : kdb V := mkKdb (k_arch d) (k_mode d) (k_comp d) (k_desc d) (k_smpl d) o.
Theorem C77_refused_refuted :
  ~ (forall file d0 d1 o, k_arch d0 = ARCH -> load comments toy file d0 = (Returned false, d1) -> comments_ok (refill d0 o) ->
       round_trip comments toy false (refill d1 o)) /\
  exists d1, load comments toy windows empty = (Returned false, d1) /\
    fst (save comments toy false (refill d1 [(S2L "A", S2L "my text")])) = Returned true /\
    fst (load comments toy (file_of (save comments toy false (refill d1 [(S2L "A", S2L "my text")]))) empty) = Returned false.
Proof.
  split.
  - intros H. pose (d1 := snd (load comments toy windows empty)).
    destruct (H windows empty d1 [(S2L "A", S2L "my text")] eq_refl) as (f & E & R).
    + vm_compute. reflexivity.
    + split; [|reflexivity]. storable_by text_by.
    + destruct (R empty) as (d2 & L & _). rewrite (file_saved _ _ E) in L. apply (f_equal fst) in L. vm_compute in L. discriminate L.
  - eexists. split; [vm_compute; reflexivity|]. split; vm_compute; reflexivity.
Qed.

Print Assumptions C73_codepage.
Print Assumptions C73_bytes.
Print Assumptions C73_save_refuted.
Print Assumptions C74_comments_lists.
Print Assumptions C74_identities.
Print Assumptions C74_scalars.
Print Assumptions C74_variables.
Print Assumptions C74_equations.
Print Assumptions C74_year_refuted.
Print Assumptions C74_description_refuted.
Print Assumptions C74_accent_refuted.
Print Assumptions C75_truncated.
Print Assumptions C75_refused.
Print Assumptions C75_thrown_refuted.
Print Assumptions C76_selected_partial.
Print Assumptions C76_absent_refuted.
Print Assumptions C76_order_refuted.
Print Assumptions C76_compressed_refuted.
Print Assumptions C77_loaded.
Print Assumptions C77_refused_refuted.
