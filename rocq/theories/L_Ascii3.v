(** Lemmas on the numbers of ASCII files: scalars and variables. *)
From Coq Require Import ZArith Ascii String List Bool Lia Sorted Floats.SpecFloat.
From Verif Require Import M_Base M_Time M_Names M_Lex M_Compile M_Bytes M_Exec M_Double M_Decimal M_Kdb M_Ascii S_Time S_Names S_Ascii
  L_Time L_Names L_Kdb L_Decimal L_Round L_Round2 L_Round3 L_Round4 L_Ascii.
Import ListNotations.
Open Scope Z_scope.

Definition is_long (t : number_text) : bool :=
  match fp t, ep t with [], None => Z.of_nat (length (text_of (chr 69) t)) <? 10 | _, _ => false end.
Lemma lex_number keys a t r t0 w0 : blanks a -> nt_ok t -> (length (text_of (chr 69) t) <= 60)%nat -> number_end r ->
  lex keys (mkY (a ++ text_of (chr 101) t ++ r) t0 w0 false) =
    let ty := if is_long t then Y_LONG else Y_DOUBLE in Done (L_TYPE ty, mkY r ty (text_of (chr 69) t) false).
Proof.
  intros B OK L N. unfold lex. cbn [lex_loop]. unfold yread. cbn [reread rest].
  rewrite (skip_blanks a _ B). pose proof (read_num_spec (chr 101) t r ltac:(left; reflexivity) OK N) as RN.
  destruct OK as (D & NE & _). destruct t as [i f x]. cbn [ip fp ep] in *. destruct i as [|c i]; [congruence|].
  change (text_of (chr 101) (mkNT (c :: i) f x) ++ r) with (c :: (i ++ frac_text f ++ exp_part (chr 101) x) ++ r) in *.
  inversion D as [|? ? Dc _]; subst. cbn [skip_spaces].
  assert (Hc : 48 <= code c <= 57) by (unfold isdigit in Dc; lia).
  replace (isspace c) with false by (symmetry; unfold isspace; lia).
  replace (code c =? 34) with false by lia. replace (code c =? 39) with false by lia. replace (code c =? 36) with false by lia.
  replace (code c =? 35) with false by lia. rewrite Dc. unfold read_number. rewrite RN. cbn [app].
  unfold is_long. cbn [fp ep]. set (w := text_of (chr 69) (mkNT (c :: i) f x)) in *. clearbody w.
  unfold fits_real. replace (Z.of_nat (length w) <? 255) with true by lia.
  destruct f as [|f0 f]; [destruct x as [e|]|]; cbn [negb andb]; [reflexivity| |reflexivity].
  destruct (Z.of_nat (length w) <? 10); reflexivity.
Qed.
Lemma long_value t : nt_ok t -> is_long t = true -> 0 <= long_of (text_of (chr 69) t) /\ scan (text_of (chr 69) t) = d_ofZ (long_of (text_of (chr 69) t)).
Proof.
  intros OK L. rewrite (scan_nt (chr 69) t ltac:(right; reflexivity) OK). destruct OK as (D & _). unfold is_long in L. destruct t as [i f x]. cbn [ip fp ep] in *.
  destruct f; [|discriminate]. destruct x; [discriminate|]. unfold nt_mant, nt_exp, text_of, long_of. cbn [ip fp ep frac_text exp_part exp_value length]. rewrite !app_nil_r.
  assert (V : 0 <= fst (read_digits i 0 0)).
  { clear -D. cut (forall n k, 0 <= n -> 0 <= fst (read_digits i n k)); [intros H; apply H; lia|].
    induction i as [|c i IH]; intros n k H; [exact H|]. inversion D as [|? ? Dc Di]; subst. cbn [read_digits]. rewrite Dc. apply IH; [exact Di|].
    unfold isdigit in Dc. lia. }
  split; [exact V|]. change (0 - Z.of_nat 0) with 0. rewrite <- decimal_ofZ by exact V. reflexivity.
Qed.
Lemma read_positive k keys a t r t0 w0 : blanks a -> nt_ok t -> (length (text_of (chr 69) t) <= 60)%nat -> number_end r ->
  exists y w, real_loop (S k) keys false (mkY (a ++ text_of (chr 101) t ++ r) t0 w0 false) = Done (scan (text_of (chr 69) t), mkY r y w false).
Proof.
  intros B OK L N. cbn [real_loop]. rewrite (lex_number keys a t r t0 w0 B OK L N). cbn [ibind].
  destruct (is_long t) eqn:I; cbn [text]; eexists _, _; [|reflexivity]. rewrite (proj2 (long_value t OK I)). reflexivity.
Qed.
Lemma read_minus k keys a t r t0 w0 m e : blanks a -> nt_ok t -> (length (text_of (chr 69) t) <= 60)%nat -> number_end r ->
  scan (text_of (chr 69) t) = S754_finite false m e -> normal m e ->
  exists y w, real_loop (S k) keys true (mkY (a ++ text_of (chr 101) t ++ r) t0 w0 false) = Done (S754_finite true m e, mkY r y w false).
Proof.
  intros B OK L N SC NO. cbn [real_loop]. rewrite (lex_number keys a t r t0 w0 B OK L N). cbn [ibind].
  destruct (is_long t) eqn:I; cbn [text]; eexists _, _.
  - destruct (long_value t OK I) as [V E]. rewrite SC in E.
    assert (0 < long_of (text_of (chr 69) t)) by (destruct (Z.eq_dec (long_of (text_of (chr 69) t)) 0) as [Q|Q]; [rewrite Q in E; discriminate E|lia]).
    rewrite (ofZ_opp _ H), <- E. reflexivity.
  - rewrite SC, (mul_minus m e NO). reflexivity.
Qed.
Lemma lex_dash keys a s t0 w0 : blanks a ->
  exists l, lex keys (mkY (a ++ chr 45 :: s) t0 w0 false) = Done (l, mkY s Y_SPECIAL [chr 45] false) /\ (l = L_TYPE Y_SPECIAL \/ l = L_KEY [chr 45]).
Proof.
  intros B. unfold lex. cbn [lex_loop]. unfold yread. cbn [reread rest]. rewrite (skip_blanks a _ B).
  change (skip_spaces (chr 45 :: s)) with (chr 45 :: s). cbv iota beta.
  change (isdigit (chr 45)) with false. change (scr_is_alpha (chr 45) || is_us (chr 45)) with false.
  change (code (chr 45)) with 45. cbn [Z.eqb Pos.eqb token ibind text].
  destruct (existsb (str_eqb [chr 45]) keys); eexists; (split; [reflexivity|auto]).
Qed.
Lemma number_end_sp r : number_end (SP :: r).
Proof. intros c u E. injection E as <- _. repeat split; (reflexivity || discriminate). Qed.

(** * Values *)
Definition kept (p : Z) (x : dbl) : dbl := if d_num x then stored p x else d_na.
Definition writable (p : Z) (x : dbl) : Prop := d_num x = true -> x = S754_zero false \/ exists t, printed p x t.
Lemma read_value keys p x a r t0 w0 : blanks a -> ~ In (S2L "na") keys -> writable p x ->
  exists y w, read_real keys (mkY (a ++ print_val p x ++ r) t0 w0 false) = Done (kept p x, mkY (SP :: r) y w false).
Proof.
  intros B K W. unfold print_val, kept. rewrite <- app_assoc. change ([SP] ++ r) with (SP :: r).
  destruct (d_num x) eqn:NX.
  - destruct (W NX) as [-> |(t & [PT OK LEN (m & e & SC & NO & ST)])].
    + destruct (read_positive (S (length (a ++ print_g p (S754_zero false) ++ SP :: r))) keys a (mkNT [chr 48] [] None) (SP :: r) t0 w0 B) as (y & w & E);
        [repeat split; [constructor; [reflexivity|constructor]|discriminate|constructor]|cbn; lia|apply number_end_sp|].
      exists y, w. exact E.
    + rewrite PT, ST. destruct (negative x); cbn [M_Decimal.sign].
      * unfold read_real. cbn [rest]. cbn [app]. set (n := length _). cbn [real_loop].
        destruct (lex_dash keys a (text_of (chr 101) t ++ SP :: r) t0 w0 B) as (l & E & HL). rewrite E. cbn [ibind text].
        change (code (chr 45) =? 45) with true. cbv iota.
        destruct (read_minus n keys [] t (SP :: r) Y_SPECIAL [chr 45] m e ltac:(constructor) OK (LEN _) (number_end_sp r) SC NO) as (y & w & F).
        exists y, w. destruct HL as [-> | ->]; [exact F|]. change (str_eqb [chr 45] (S2L "-")) with true. exact F.
      * unfold read_real. cbn [rest]. set (n := length _).
        destruct (read_positive (S n) keys a t (SP :: r) t0 w0 B OK (LEN _) (number_end_sp r)) as (y & w & E). exists y, w. rewrite <- SC. exact E.
  - unfold read_real. cbn [rest real_loop]. change (S2L "na") with (chr 110 :: [chr 97]) in *.
    rewrite (lex_word keys a (chr 110) [chr 97] (SP :: r) t0 w0 B eq_refl eq_refl); [|intros c u E; injection E as <- _; reflexivity|cbn; lia|exact K].
    cbn [ibind text]. change (is_NA [chr 110; chr 97]) with true. exists Y_WORD, [chr 110; chr 97]. reflexivity.
Qed.
Lemma read_list p : forall l a r t0 w0, blanks a -> Forall (writable p) l -> p = 15 ->
  exists y w b, read_values (length l) (mkY (a ++ flat_map (print_val p) l ++ r) t0 w0 false) = Done (map (kept p) l, mkY (b ++ r) y w false) /\ blanks b.
Proof.
  induction l as [|x l IH]; intros a r t0 w0 B W P15.
  - exists t0, w0, a. split; [reflexivity|exact B].
  - inversion W as [|? ? Wx Wl]; subst x0 l0. cbn [length flat_map map read_values]. rewrite <- app_assoc.
    destruct (read_value TABLE p x a (flat_map (print_val p) l ++ r) t0 w0 B) as (y & w & E); [cbn; intuition discriminate|exact Wx|].
    rewrite E. cbn [ibind].
    destruct (IH [SP] r y w (blanks1 SP eq_refl) Wl P15) as (y' & w' & b & F & G). cbn [app] in F. rewrite F. cbn [ibind]. exists y', w', b. split; [reflexivity|exact G].
Qed.

(** * Scalars *)
Definition scl_body (v : scalar) : str := print_val 14 (value v) ++ print_val 14 (relax v) ++ print_val 14 (std v) ++ [LF].
Definition scl_image (v : scalar) : scalar := mkScl (stored 14 (value v)) (stored 14 (relax v)) (kept 14 (std v)).
Definition scl_good (v : scalar) : Prop :=
  (d_num (value v) = true /\ writable 14 (value v) /\ d_num (stored 14 (value v)) = true) /\
  (d_num (relax v) = true /\ writable 14 (relax v) /\ d_num (stored 14 (relax v)) = true) /\ writable 14 (std v).
Lemma scl_readable : readable SCALARS [] scl_body scl_image read_scl scl_good.
Proof.
  intros n v l db ((V1 & V2 & V3) & (R1 & R2 & R3) & S2) A H. unfold read_scl. unfold scl_body at 1. rewrite <- !app_assoc.
  change (SP :: print_val 14 (value v) ++ ?s) with ([SP] ++ print_val 14 (value v) ++ s).
  destruct (read_value [] 14 (value v) [SP] (print_val 14 (relax v) ++ print_val 14 (std v) ++ [LF] ++ file_of scl_body l) Y_WORD n
    (blanks1 SP eq_refl) (fun F => F) V2) as (y1 & w1 & E1). rewrite E1. cbn [ibind].
  destruct (read_value [] 14 (relax v) [SP] (print_val 14 (std v) ++ [LF] ++ file_of scl_body l) y1 w1
    (blanks1 SP eq_refl) (fun F => F) R2) as (y2 & w2 & E2). cbn [app] in E2 |- *. rewrite E2. cbn [ibind].
  destruct (read_value [] 14 (std v) [SP] ([LF] ++ file_of scl_body l) y2 w2
    (blanks1 SP eq_refl) (fun F => F) S2) as (y3 & w3 & E3). cbn [app] in E3 |- *. rewrite E3. cbn [ibind].
  change (SP :: LF :: file_of scl_body l) with ([SP; LF] ++ file_of scl_body l).
  assert (BL : blanks [SP; LF]) by (constructor; [reflexivity|exact (blanks1 LF eq_refl)]).
  assert (K : at_objects [] scl_body l (mkY ([SP; LF] ++ file_of scl_body l) y3 w3 false)) by (apply (at_start SCALARS [] scl_body); [exact BL|exact H]).
  unfold fuel_of.
  destruct (skip_to_name SCALARS [] scl_body l (S (2 * length (rest (mkY ([SP; LF] ++ file_of scl_body l) y3 w3 false)))) any _ K H (fun _ _ => eq_refl)) as (y4 & E4 & A4).
  { destruct l as [|[m u] l]; [|eapply not_eof; exact K]. apply eof_shape. exact BL. }
  rewrite E4. cbn [ibind]. exists y4. split; [|exact A4]. unfold add_or_skip. rewrite (set_accepted SCALARS db n _ A).
  unfold scl_image, kept, or_else. rewrite V1, R1, V3, R3. reflexivity.
Qed.
Lemma digits_printable s : digits s -> printable s.
Proof. intros D. eapply Forall_impl; [|exact D]. cbn. intros c H. left. unfold isdigit in H. lia. Qed.
Lemma text_printable t : nt_ok t -> printable (text_of (chr 101) t).
Proof.
  intros (A & _ & F & X). unfold text_of. apply printable_app; [apply digits_printable; exact A|]. apply printable_app.
  - unfold frac_text. destruct (fp t) eqn:E; [constructor|]. constructor; [left; cbn; lia|]. rewrite <- E in *. apply digits_printable. exact F.
  - destruct (ep t) as [[g u]|]; [|constructor]. cbn [exp_part]. constructor; [left; cbn; lia|]. constructor; [left; destruct g; cbn; lia|].
    apply digits_printable. apply X.
Qed.
Lemma val_printable p x : writable p x -> printable (print_val p x).
Proof.
  intros W. unfold print_val. apply printable_app; [|constructor; [left; cbn; lia|constructor]]. destruct (d_num x) eqn:E; [|repeat constructor; cbn; lia].
  destruct (W E) as [-> |(t & [PT OK _ _])].
  - repeat constructor. cbn. lia.
  - rewrite PT. destruct (negative x); cbn [M_Decimal.sign]; [constructor; [left; cbn; lia|]|]; apply text_printable; exact OK.
Qed.
Lemma load_scalars_ok db : database SCALARS db -> no_sharp db -> Forall scl_good (map snd db) ->
  load_scalars (save_scalars db) = Done (true, map (fun x => (fst x, scl_image (snd x))) db).
Proof.
  intros [S A] N P. unfold load_scalars. change (save_scalars db) with (file_of scl_body db).
  apply (load_file SCALARS [] scl_body scl_image read_scl scl_good db scl_readable S P).
  - apply names_ok; auto.
  - apply (file_printable SCALARS); [exact A|]. eapply Forall_impl; [|exact P]. intros v ((_ & V & _) & (_ & R & _) & T). unfold scl_body.
    apply printable_app; [apply val_printable; exact V|]. apply printable_app; [apply val_printable; exact R|].
    apply printable_app; [apply val_printable; exact T|]. constructor; [right; reflexivity|constructor].
Qed.

(** * Variables *)
Definition vec_body (v : list dbl) : str := flat_map (print_val 15) v ++ [LF].
Definition vec_good (nb : Z) (v : list dbl) : Prop := Z.of_nat (length v) = nb /\ Forall (writable 15) v.
Lemma vec_readable nb : (forall n, accepted VARIABLES n -> is_NA n = false) ->
  readable VARIABLES TABLE vec_body (map (kept 15)) (read_vec nb) (vec_good nb).
Proof.
  intros NN n v l db (L & W) A H. unfold read_vec. unfold vec_body at 1. rewrite <- app_assoc.
  change (SP :: flat_map (print_val 15) v ++ ?s) with ([SP] ++ flat_map (print_val 15) v ++ s).
  replace (Z.to_nat nb) with (length v) by lia.
  destruct (read_list 15 v [SP] ([LF] ++ file_of vec_body l) Y_WORD n (blanks1 SP eq_refl) W eq_refl) as (y & w & b & E & B). rewrite E. cbn [ibind].
  rewrite app_assoc. assert (BL : blanks (b ++ [LF])) by (apply Forall_app; split; [exact B|exact (blanks1 LF eq_refl)]).
  assert (K : at_objects TABLE vec_body l (mkY ((b ++ [LF]) ++ file_of vec_body l) y w false)) by (apply (at_start VARIABLES TABLE vec_body); [exact BL|exact H]).
  unfold fuel_of.
  destruct (skip_to_name VARIABLES TABLE vec_body l (S (2 * length (rest (mkY ((b ++ [LF]) ++ file_of vec_body l) y w false)))) not_na _ K H) as (y4 & E4 & A4).
  { intros m Hm. unfold not_na. rewrite (NN m); [reflexivity|]. apply (H m Hm). }
  { destruct l as [|[m u] l]; [|eapply not_eof; exact K]. cbn [file_of flat_map]. rewrite app_nil_r. apply eof_shape. exact BL. }
  rewrite E4. cbn [ibind]. exists y4. split; [|exact A4]. unfold add_or_skip. rewrite (set_accepted VARIABLES db n _ A). reflexivity.
Qed.
Lemma not_na_name n : accepted VARIABLES n -> is_NA n = false.
Proof.
  intros A. destruct (is_NA n) eqn:E; [|reflexivity]. unfold is_NA in E. apply str_eqb_iff in E. subst n.
  pose proof (accepted_key _ _ A) as K. discriminate K.
Qed.
Lemma dec_nt z : 0 <= z -> nt_ok (mkNT (to_string z) [] None) /\ text_of (chr 101) (mkNT (to_string z) [] None) = to_string z /\
  text_of (chr 69) (mkNT (to_string z) [] None) = to_string z.
Proof.
  intros H. destruct (to_string_spec z H) as (D & _ & NE & _). split; [repeat split; try assumption; constructor|].
  unfold text_of. cbn [ip fp ep frac_text exp_part app]. rewrite !app_nil_r. split; reflexivity.
Qed.
Lemma to_string_short z k : 0 <= z < 10 ^ k -> 1 <= k -> Z.of_nat (length (to_string z)) <= k.
Proof.
  intros Hz Hk. destruct (to_string_spec z ltac:(lia)) as (_ & _ & _ & _ & [L|L]); [|rewrite L; cbn; lia].
  destruct (Z.le_gt_cases (Z.of_nat (length (to_string z))) k) as [C|C]; [exact C|exfalso].
  assert (10 ^ k <= 10 ^ (Z.of_nat (length (to_string z)) - 1)) by (apply Z.pow_le_mono_r; lia). lia.
Qed.
Lemma read_period keys a p r t0 w0 : blanks a -> valid_period p -> 1000 <= year p <= 9999 -> number_end r ->
  exists w, read_per keys (mkY (a ++ period_to_string p ++ r) t0 w0 false) = Done (Some p, mkY r Y_LONG w false).
Proof.
  intros B V Y N. pose proof (parse_print p V Y) as PP. pose proof V as (nb & Hs & St). destruct (sub_upper _ _ Hs) as (_ & N0 & ND).
  assert (nb <= 365) by (destruct Hs; lia).
  assert (PT : period_to_string p = to_string (year p) ++ per p :: to_string (M_Time.step p)).
  { unfold period_to_string. rewrite N0. replace (year p =? 0) with false by lia. replace (M_Time.step p =? 0) with false by lia. reflexivity. }
  rewrite PT in *. rewrite <- app_assoc. cbn [app]. unfold read_per.
  destruct (dec_nt (year p) ltac:(lia)) as (O1 & T1 & T1'). destruct (dec_nt (M_Time.step p) ltac:(lia)) as (O2 & T2 & T2').
  pose proof (to_string_short (year p) 4 ltac:(lia) ltac:(lia)) as L1. pose proof (to_string_short (M_Time.step p) 3 ltac:(lia) ltac:(lia)) as L2.
  assert (I1 : is_long (mkNT (to_string (year p)) [] None) = true) by (unfold is_long; cbn [fp ep]; rewrite T1'; lia).
  assert (I2 : is_long (mkNT (to_string (M_Time.step p)) [] None) = true) by (unfold is_long; cbn [fp ep]; rewrite T2'; lia).
  pose proof (lex_number keys a _ (per p :: to_string (M_Time.step p) ++ r) t0 w0 B O1) as X1. rewrite T1 in X1.
  pose proof (lex_number keys [] _ r Y_LONG (to_string (year p)) ltac:(constructor) O2 ltac:(rewrite T2'; lia) N) as X2. rewrite T2 in X2. cbn [app] in X2.
  rewrite X1; [|rewrite T1'; lia|].
  2: { intros c u E. injection E as <- _. destruct Hs; repeat split; (reflexivity || discriminate). }
  rewrite I1. cbn [ibind rest typ text]. rewrite T1'.
  rewrite X2, I2. cbn [ibind text]. rewrite T2', PP. cbn [of_res ibind]. eexists. reflexivity.
Qed.
Lemma number_end_lf r : number_end (LF :: r).
Proof. intros c u E. injection E as <- _. repeat split; (reflexivity || discriminate). Qed.
Lemma read_sample keys s a r t0 w0 : blanks a -> sample_ok s -> 1000 <= year (s_start s) -> year (s_start s) <= 9999 -> 1000 <= year (s_end s) <= 9999 ->
  exists w, read_smpl keys (mkY (a ++ period_to_string (s_start s) ++ SP :: period_to_string (s_end s) ++ LF :: r) t0 w0 false) =
    Done (Some s, mkY (LF :: r) Y_LONG w false).
Proof.
  intros B (n & Hn & V1 & V2 & St & Nb) Y1 Y1' Y2. unfold read_smpl.
  destruct (read_period keys a (s_start s) (SP :: period_to_string (s_end s) ++ LF :: r) t0 w0 B V1 ltac:(lia) (number_end_sp _)) as (w1 & E1). rewrite E1. cbn [ibind].
  destruct (read_period keys [SP] (s_end s) (LF :: r) Y_LONG w1 (blanks1 SP eq_refl) V2 Y2 (number_end_lf _)) as (w2 & E2). cbn [app] in E2. rewrite E2. cbn [ibind].
  destruct (make_sample_count _ _ n V1 St Hn) as (s' & MS & A1 & A2 & A3 & _).
  pose proof V1 as (nb & Hs & _). destruct (steps_ord _ _ _ St V1 nb Hs) as (Pe & _ & O).
  rewrite (difference_spec (s_end s) (s_start s) nb) by (rewrite ?Pe; auto). cbn [of_res ibind].
  replace (ord nb (s_end s) - ord nb (s_start s) <? 0) with false by lia. rewrite MS. cbn [of_res ibind]. exists w2. do 2 f_equal. f_equal.
  destruct s, s'. cbn in *. congruence.
Qed.
Lemma per_printable ch nb : sub_periods ch nb -> 32 <= code ch.
Proof. intros H. destruct H; cbn; lia. Qed.
Lemma period_printable p : valid_period p -> 1000 <= year p <= 9999 -> printable (period_to_string p).
Proof.
  intros (nb & Hs & St) Y. unfold period_to_string. destruct (_ || _); [constructor|].
  apply printable_app; [apply digits_printable; apply to_string_spec; lia|]. constructor; [left; exact (per_printable _ _ Hs)|].
  apply digits_printable. apply to_string_spec. lia.
Qed.
Lemma load_variables_ok s db : database VARIABLES db -> no_sharp db -> (forall n, In n (map fst db) -> ~ In n TABLE) ->
  sample_ok s -> 1000 <= year (s_start s) <= 9999 -> 1000 <= year (s_end s) <= 9999 ->
  Forall (vec_good (s_nb s)) (map snd db) ->
  load_variables (save_vars s db) = Done (true, mkVdb (Some s) (map (fun x => (fst x, map (kept 15) (snd x))) db)).
Proof.
  intros [Srt A] N K SO Y1 Y2 P. unfold load_variables.
  assert (PR : printable (file_of vec_body db)).
  { apply (file_printable VARIABLES); [exact A|]. eapply Forall_impl; [|exact P]. intros v (_ & W). unfold vec_body.
    apply printable_app; [|constructor; [right; reflexivity|constructor]]. induction W; [constructor|]. cbn [flat_map].
    apply printable_app; [apply val_printable; assumption|assumption]. }
  pose proof SO as (n & _ & V1 & V2 & _ & Nb).
  assert (PF : printable (S2L "sample " ++ period_to_string (s_start s) ++ SP :: period_to_string (s_end s) ++ [LF] ++ file_of vec_body db)).
  { apply printable_app; [repeat (constructor; [left; cbn; lia|]); constructor|]. apply printable_app; [apply period_printable; assumption|].
    constructor; [left; cbn; lia|]. apply printable_app; [apply period_printable; assumption|]. constructor; [right; reflexivity|exact PR]. }
  unfold opened. etransitivity; [apply (f_equal (fun f => ibind (lex TABLE (mkY f Y_NONE [] false)) _)); exact (delivered_printable _ 0 PF)|].
  match goal with |- context [lex TABLE (mkY (_ ++ ?x) _ _ _)] => set (R := x) in * end.
  replace (lex TABLE (mkY (S2L "sample " ++ R) Y_NONE [] false)) with (Done (L_KEY (S2L "sample"), mkY (SP :: R) Y_WORD (S2L "sample") false)) by reflexivity.
  cbn [ibind]. change (str_eqb (S2L "sample") (S2L "sample")) with true. cbv iota. unfold R. cbn [app].
  destruct (read_sample TABLE s [SP] (file_of vec_body db) Y_WORD (S2L "sample") (blanks1 SP eq_refl) SO ltac:(lia) ltac:(lia) Y2) as (w & E).
  cbn [app] in E. rewrite E. cbn [ibind]. replace (s_nb s =? 0) with false by lia.
  pose proof (names_ok VARIABLES db TABLE A N K) as NK.
  rewrite (load_objects VARIABLES TABLE vec_body (map (kept 15)) (read_vec (s_nb s)) (vec_good (s_nb s)) (vec_readable _ not_na_name) db _ [] _ P NK).
  - cbn [ibind]. rewrite puts_sorted; [reflexivity|]. cbn. rewrite map_map. cbn [fst]. exact Srt.
  - apply (at_start VARIABLES TABLE vec_body db [LF]); [exact (blanks1 LF eq_refl)|exact NK].
  - unfold fuel_of. cbn [rest length]. pose proof (file_length vec_body (map (kept 15)) (read_vec (s_nb s)) db). lia.
Qed.
