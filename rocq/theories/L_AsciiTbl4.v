(** Lemmas on the ASCII files of tables: whole tables and files. *)
From Coq Require Import ZArith Ascii String List Bool Lia Sorted Floats.SpecFloat.
From Verif Require Import M_Base M_Time M_Names M_Lex M_Compile M_Bytes M_Exec M_Double M_Decimal M_Kdb M_Ascii M_AsciiEqs M_AsciiTbl S_Time S_Names
  S_Ascii S_AsciiEqs S_AsciiTbl L_Time L_Names L_Kdb L_Decimal L_Round L_Round2 L_Round3 L_Round4 L_Ascii L_Ascii3 L_AsciiEqs L_AsciiTbl L_AsciiTbl2 L_AsciiTbl3.
Import ListNotations.
Open Scope Z_scope.

Section Reading.
Variable compiles : str -> bool.
Local Notation good := L_AsciiTbl.good.
Local Notation reads := (reads compiles).
Inductive reading : list (list item) -> table -> table -> Prop :=
| reading_nil t : reading [] t t
| reading_cons c l t t1 t2 : reads c t t1 -> opens c -> reading l t1 t2 -> reading (c :: l) t t2.
Lemma reading_app a b t t1 t2 : reading a t t1 -> reading b t1 t2 -> reading (a ++ b) t t2.
Proof. intros H. induction H as [|c l t t1 t3 R O _ IH]; intros Hb; [exact Hb|]. cbn [app]. econstructor; [exact R|exact O|apply IH, Hb]. Qed.
Lemma reading_one c t t1 : reads c t t1 -> opens c -> reading [c] t t1.
Proof. intros R O. econstructor; [exact R|exact O|constructor]. Qed.
Lemma opens_app a b : opens a -> Forall good b -> opens (a ++ b).
Proof. intros (j & l & -> & S & G) H. exists j, (l ++ b). split; [reflexivity|]. split; [exact S|]. apply Forall_app. split; assumption. Qed.
Lemma END_opens : opens [END].
Proof. exists END, []. split; [reflexivity|]. split; [|constructor]. split; [intros c; reflexivity|]. split; [intros x; reflexivity|apply good_END]. Qed.
Lemma reading_opens l t t' : reading l t t' -> opens (concat l ++ [END]).
Proof.
  intros H. induction H as [|c l t t1 t2 R O H IH]; [apply END_opens|]. cbn [concat]. rewrite <- app_assoc. apply opens_app; [exact O|apply opens_good, IH].
Qed.
Lemma reading_good l t t' : reading l t t' -> Forall good (concat l ++ [END]).
Proof. intros H. eapply opens_good, reading_opens, H. Qed.
Lemma reading_loop l t t' : reading l t t' -> forall k tail y, at_items (concat l ++ [END]) tail y -> (length l < k)%nat ->
  exists y1, table_loop compiles k t y = Done (t', y1) /\ at_items [] tail y1.
Proof.
  intros H. induction H as [t|c l t t1 t2 R O H IH]; intros k tail y A K; (destruct k as [|k]; [cbn in K; lia|]).
  - cbn [concat app] in A. destruct (step _ _ _ _ good_END ltac:(constructor) A) as (y1 & E & _ & A1 & _). exists y1. split; [|exact A1].
    rewrite table_loop_S, E. reflexivity.
  - cbn [concat] in A. rewrite <- app_assoc in A. destruct (R k _ tail y (reading_opens _ _ _ H) A) as (y1 & E & A1). rewrite E.
    apply IH; [exact A1|]. cbn [length] in K. lia.
Qed.

(** The entries of a table. *)
Definition limit_chunk (f : nat) (v : dbl) : list (list item) := if d_num v then [limit_items f v] else [].
Definition line_chunk (x : tline) : list item := Sg [LF] 45 [SP] :: line_items x.
Definition chunks (t : table) : list (list item) :=
  [[lang_item (language t)]; [L_AsciiTbl.K [LF] "BOX"; L_AsciiTbl.N SP (box t)]; [L_AsciiTbl.K [] "AXIS"; L_AsciiTbl.N SP (axis t)]; [L_AsciiTbl.K [] "XGRID"; L_AsciiTbl.N SP (gridx t)];
   [L_AsciiTbl.K [] "YGRID"; L_AsciiTbl.N SP (gridy t)]; [L_AsciiTbl.K [LF] "ALIGN"; align_item (text_align t)]] ++
  limit_chunk 0 (ymin t) ++ limit_chunk 1 (ymax t) ++ limit_chunk 2 (zmin t) ++ limit_chunk 3 (zmax t) ++
  [L_AsciiTbl.K [LF] "DIV" :: flat_map cell_items (divider t)] ++ map line_chunk (tlines t).
Definition prefix (t : table) : list item := [Sg [] 123 []; L_AsciiTbl.K [LF] "DIM"; L_AsciiTbl.N LF (columns t)].
Definition table_items (t : table) : list item := prefix t ++ concat (chunks t) ++ [END].
Ltac opened := eexists _, _; split; [reflexivity|]; split; [split; [intros ?; reflexivity|split; [intros ?; reflexivity|]]|].
Lemma header_opens p f v : gap p -> (f <= 3)%nat -> char_value v -> opens [L_AsciiTbl.K p (header_name f); L_AsciiTbl.N SP v].
Proof.
  intros P F V. unfold char_value in V. assert (GN : good (L_AsciiTbl.N SP v)) by (apply good_N; [gp|lia]).
  do 4 (destruct f as [|f]; [opened; [apply good_K; [exact P|is_kword]|constructor; [exact GN|constructor]]|]). lia.
Qed.
Lemma limit_opens f v : (f <= 3)%nat -> numer v < denom v * 10 ^ 38 -> opens (limit_items f v).
Proof.
  intros F H. pose proof (limit_good f v F H) as G. unfold limit_items in *. inversion G as [|? ? GK GR]; subst.
  do 4 (destruct f as [|f]; [opened; [exact GK|exact GR]|]). lia.
Qed.
Lemma line_opens cols x : savable_line compiles cols x -> opens (line_chunk x).
Proof. intros H. unfold line_chunk. opened; [apply good_Sg; [gp|gp|cbn; auto]|apply (line_good compiles cols), H]. Qed.
Lemma lang_opens g : opens [lang_item g].
Proof. destruct g; (opened; [apply good_K; [gp|is_kword]|constructor]). Qed.
Lemma reading_limit f v t : (f <= 3)%nat -> savable_limit v -> reading (limit_chunk f v) t (if d_num v then set_limit f (reread_limit v) t else t).
Proof.
  intros F H. unfold limit_chunk, savable_limit in *. destruct (d_num v); [|constructor]. specialize (H eq_refl).
  assert (numer v < denom v * 10 ^ 38) by (destruct v; (exact H || destruct H)).
  apply reading_one; [apply reads_limit; assumption|apply limit_opens; assumption].
Qed.
Lemma reading_lines xs : forall t, 0 < columns t -> Forall (savable_line compiles (columns t)) xs ->
  reading (map line_chunk xs) t (fold_left (fun t x => add_line (Some (kept_line x)) t) xs t).
Proof.
  induction xs as [|x xs IH]; intros t C H; [constructor|]. inversion H as [|? ? Hx Hxs]; subst. cbn [map fold_left]. econstructor; [apply reads_line; assumption|apply (line_opens (columns t)), Hx|].
  apply IH; assumption.
Qed.
Lemma lines_added xs : forall t, fold_left (fun t x => add_line (Some (kept_line x)) t) xs t =
  mkTable (columns t) (language t) (box t) (axis t) (gridx t) (gridy t) (text_align t) (ymin t) (ymax t) (zmin t) (zmax t) (divider t) (tlines t ++ map kept_line xs) (others t).
Proof.
  induction xs as [|x xs IH]; intros t; [cbn; rewrite app_nil_r; destruct t; reflexivity|]. cbn [fold_left map]. rewrite IH. unfold add_line. cbn.
  rewrite <- app_assoc. reflexivity.
Qed.
Lemma new_divider n : 1 <= n -> length (divider (new_table compiles n)) = Z.to_nat n.
Proof. intros H. cbn [new_table divider length]. rewrite map_length, seq_length. lia. Qed.
Lemma reading_table t : savable_table compiles t -> reading (chunks t) (new_table compiles (columns t)) (kept_table t).
Proof.
  intros (C & B & Ax & Gx & Gy & Al & Li & Ld & Di & Ls). pose proof (new_divider (columns t) ltac:(lia)) as ND.
  inversion Li as [|? ? L1 Li1]; subst. inversion Li1 as [|? ? L2 Li2]; subst. inversion Li2 as [|? ? L3 Li3]; subst. inversion Li3 as [|? ? L4 _]; subst.
  unfold chunks. cbn [app].
  econstructor; [apply (reads_lang compiles (language t))|apply lang_opens|].
  econstructor; [apply (reads_header compiles [LF] 0 (box t)); [gp|lia|exact B]|apply (header_opens [LF] 0); [gp|lia|exact B]|].
  econstructor; [apply (reads_header compiles [] 1 (axis t)); [gp|lia|exact Ax]|apply (header_opens [] 1); [gp|lia|exact Ax]|].
  econstructor; [apply (reads_header compiles [] 2 (gridx t)); [gp|lia|exact Gx]|apply (header_opens [] 2); [gp|lia|exact Gx]|].
  econstructor; [apply (reads_header compiles [] 3 (gridy t)); [gp|lia|exact Gy]|apply (header_opens [] 3); [gp|lia|exact Gy]|].
  econstructor; [apply (reads_align compiles (text_align t)); exact Al| |].
  { opened; [apply good_K; [gp|is_kword]|constructor; [apply align_item_good|constructor]]. }
  eapply reading_app; [apply (reading_limit 0); [lia|exact L1]|]. eapply reading_app; [apply (reading_limit 1); [lia|exact L2]|].
  eapply reading_app; [apply (reading_limit 2); [lia|exact L3]|]. eapply reading_app; [apply (reading_limit 3); [lia|exact L4]|].
  match goal with |- reading _ ?x _ => set (t1 := x) end.
  assert (T1 : t1 = mkTable (columns t) (language t) (box t) (axis t) (gridx t) (gridy t) (text_align t)
    (kept_limit (ymin t)) (kept_limit (ymax t)) (kept_limit (zmin t)) (kept_limit (zmax t)) (divider (new_table compiles (columns t))) [] (0, 0, 0)).
  { unfold t1, kept_limit. destruct (d_num (ymin t)), (d_num (ymax t)), (d_num (zmin t)), (d_num (zmax t)); reflexivity. }
  clearbody t1. subst t1.
  eapply reading_cons.
  - apply reads_div; [exact Di|exact Ld|]. cbn [divider]. rewrite ND. lia.
  - opened; [apply good_K; [gp|is_kword]|apply (cells_good compiles), Di].
  - match goal with |- reading _ ?x _ => pose proof (reading_lines (tlines t) x ltac:(cbn; lia) Ls) as X end. rewrite lines_added in X. exact X.
Qed.

(** The text of a table. *)
Lemma limit_text f v : flat_map shown (concat (limit_chunk f v)) = if d_num v then LF :: S2L (limit_name f) ++ SP :: M_Decimal.sign (negative v) (text_of (chr 101) (nt6 (round_div (numer v * 10 ^ 6) (denom v)))) ++ [SP] else [].
Proof.
  unfold limit_chunk. destruct (d_num v); [|reflexivity]. cbn [concat]. rewrite app_nil_r. unfold limit_items. cbn [flat_map].
  unfold shown at 1. cbn [pre itext post L_AsciiTbl.K]. destruct (negative v); cbn [app flat_map M_Decimal.sign]; unfold shown; cbn [pre itext post Sg Rl app]; rewrite ?app_nil_r, <- ?app_assoc; reflexivity.
Qed.
Lemma f_text_nt n d : 0 < d -> 0 <= n -> f_text n d = text_of (chr 101) (nt6 (round_div (n * 10 ^ 6) d)).
Proof.
  intros D H. unfold f_text. set (r := round_div _ _). destruct (nt6_ok r) as (_ & _ & _ & T & _); [apply round_div_bound; lia|]. rewrite T. reflexivity.
Qed.
Lemma print_limit_text f v : savable_limit v -> print_limit (limit_name f) v = flat_map shown (concat (limit_chunk f v)).
Proof.
  intros H. rewrite limit_text. unfold print_limit, savable_limit in *. destruct (d_num v); [|reflexivity]. specialize (H eq_refl). unfold line_feed. cbn [app]. do 3 f_equal.
  pose proof (denom_pos v). pose proof (numer_nonneg v). unfold print_f. destruct v as [s|s| |s m e]; try destruct H.
  - cbn [negative numer denom]. rewrite f_text_nt by lia. reflexivity.
  - cbn [negative numer denom] in *. destruct (0 <=? e); rewrite f_text_nt by assumption; reflexivity.
Qed.
Lemma firstn_exact {X} (l : list X) n : n = length l -> firstn n l = l.
Proof. intros ->. apply firstn_all. Qed.
Lemma lines_text xs cols : Forall (savable_line compiles cols) xs -> flat_map shown (concat (map line_chunk xs)) = flat_map print_line xs.
Proof.
  intros H. induction H as [|x xs Hx _ IH]; [reflexivity|]. cbn [map concat flat_map]. rewrite flat_map_app, IH. f_equal. apply (line_text compiles cols), Hx.
Qed.
Lemma table_text t : savable_table compiles t -> flat_map shown (table_items t) = S2L "{" ++ print_tbl t ++ S2L "}" ++ [LF].
Proof.
  intros (C & B & Ax & Gx & Gy & Al & Li & Ld & Di & Ls).
  inversion Li as [|? ? L1 Li1]; subst. inversion Li1 as [|? ? L2 Li2]; subst. inversion Li2 as [|? ? L3 Li3]; subst. inversion Li3 as [|? ? L4 _]; subst.
  unfold table_items, chunks, print_tbl. rewrite (firstn_exact (divider t)) by lia.
  change "YMIN"%string with (limit_name 0). change "YMAX"%string with (limit_name 1). change "ZMIN"%string with (limit_name 2). change "ZMAX"%string with (limit_name 3).
  rewrite !print_limit_text by assumption.
  rewrite <- (cells_text compiles (divider t) Di), <- (lines_text (tlines t) (columns t) Ls).
  rewrite !concat_app, !flat_map_app. cbn [concat flat_map prefix app]. rewrite ?app_nil_r.
  assert (LG : shown (lang_item (language t)) = lang_text (language t)) by (destruct (language t); reflexivity).
  assert (AL : shown (align_item (text_align t)) = (if text_align t =? 0 then S2L "LEFT " else if text_align t =? 1 then S2L "CENTER " else if text_align t =? 2 then S2L "RIGHT " else [])).
  { assert (D : text_align t = 0 \/ text_align t = 1 \/ text_align t = 2) by lia. destruct D as [-> | [-> | ->]]; reflexivity. }
  rewrite LG, AL. unfold print_align, line_feed.
  generalize (flat_map shown (concat (limit_chunk 0 (ymin t)))), (flat_map shown (concat (limit_chunk 1 (ymax t)))), (flat_map shown (concat (limit_chunk 2 (zmin t)))),
    (flat_map shown (concat (limit_chunk 3 (zmax t)))), (flat_map shown (flat_map cell_items (divider t))), (flat_map shown (concat (map line_chunk (tlines t)))), (lang_text (language t)).
  intros z1 z2 z3 z4 z5 z6 z7. assert (D : text_align t = 0 \/ text_align t = 1 \/ text_align t = 2) by lia. clear -D. unfold shown. cbn [pre itext post L_AsciiTbl.K L_AsciiTbl.N Sg END S2L list_ascii_of_string app].
  repeat progress (rewrite <- ?app_assoc, ?app_nil_r; cbn [app S2L list_ascii_of_string]). destruct D as [-> | [-> | ->]]; reflexivity.
Qed.

(** The reading of a table in a file. *)
Definition table_body (t : table) : str := S2L "{" ++ print_tbl t ++ S2L "}" ++ [LF].
Lemma prefix_good t : savable_table compiles t -> Forall good (prefix t).
Proof.
  intros (C & _). constructor; [apply good_Sg; [gp|gp|cbn; auto]|]. constructor; [apply good_K; [gp|is_kword]|]. constructor; [apply good_N; [gp|lia]|constructor].
Qed.
Lemma items_good t : savable_table compiles t -> Forall good (table_items t).
Proof. intros H. apply Forall_app. split; [apply prefix_good, H|]. eapply reading_good, reading_table, H. Qed.
Lemma chunks_length l t t' : reading l t t' -> (length l <= length (concat l))%nat.
Proof. intros H. induction H as [|c l t t1 t2 R (j & is & -> & _) H IH]; [cbn; lia|]. cbn [concat app length]. rewrite app_length. lia. Qed.
Lemma read_tbl_items t tail b ty w : blanks b -> savable_table compiles t ->
  exists y1, read_tbl compiles (mkY (b ++ table_body t ++ tail) ty w false) = Done (Some (kept_table t), y1) /\ at_items [] tail y1.
Proof.
  intros B H. unfold table_body. rewrite <- (table_text t H).
  assert (A : at_items (table_items t) tail (mkY (b ++ flat_map shown (table_items t) ++ tail) ty w false)) by (left; exists b, ty, w; split; [exact B|reflexivity]).
  generalize (mkY (b ++ flat_map shown (table_items t) ++ tail) ty w false), A. clear A. intros y A. pose proof (prefix_good t H) as G. pose proof (reading_table t H) as R. pose proof (reading_good _ _ _ R) as GR.
  unfold table_items, prefix in *. cbn [app] in A.
  inversion G as [|? ? G1 G']; subst. inversion G' as [|? ? G2 G'']; subst. inversion G'' as [|? ? G3 _]; subst.
  destruct (step _ _ _ _ G1 ltac:(constructor; [exact G2|constructor; [exact G3|exact GR]]) A) as (y1 & E1 & _ & A1 & _).
  destruct (step _ _ _ _ G2 ltac:(constructor; [exact G3|exact GR]) A1) as (y2 & E2 & _ & A2 & _).
  destruct (step _ _ _ _ G3 GR A2) as (y3 & E3 & T3 & A3 & _ & L3).
  unfold read_tbl. rewrite E1. cbn [ibind itok Sg]. change (is_key (L_KEY [chr 123]) "{") with true. cbv iota.
  rewrite E2. cbn [ibind itok L_AsciiTbl.K]. change (is_key (L_KEY (S2L "DIM")) "DIM") with true. cbv iota.
  rewrite E3. cbn [ibind itok L_AsciiTbl.N]. rewrite T3. cbn [iw L_AsciiTbl.N].
  pose proof H as (C & _).
  assert (D : to_short (long_of (to_string (columns t))) = columns t).
  { replace (long_of (to_string (columns t))) with (columns t) by (symmetry; apply to_string_spec; lia). unfold to_short. rewrite Z.mod_small; lia. }
  rewrite D. cbn [ibind].
  destruct (reading_loop _ _ _ R (fuel_of y3) tail y3 A3) as (y4 & E4 & A4).
  { unfold fuel_of. pose proof (chunks_length _ _ _ R). rewrite app_length in L3. lia. }
  rewrite E4. cbn [ibind]. exists y4. split; [reflexivity|exact A4].
Qed.
Lemma tables_readable : readable TABLES TABLE table_body kept_table (read_table compiles) (savable_table compiles).
Proof.
  intros n v l db G A H. unfold read_table.
  destruct (read_tbl_items v (file_of table_body l) [SP] Y_WORD n (blanks1 SP eq_refl) G) as (y1 & E & A1). cbn [app] in E. rewrite E. cbn [ibind].
  rewrite (set_accepted TABLES db n _ A). exists y1. split; [reflexivity|]. destruct A1 as [(b & t & w & B & ->)|(i & is & X & _)]; [|discriminate X].
  cbn [flat_map app]. apply (at_start TABLES TABLE table_body); assumption.
Qed.
Lemma body_printable t : savable_table compiles t -> printable (table_body t).
Proof.
  intros H. unfold table_body. rewrite <- (table_text t H). pose proof (items_good t H) as G. induction G as [|i is Gi _ IH]; [constructor|]. cbn [flat_map].
  apply printable_app; [apply Gi|exact IH].
Qed.
Lemma load_tables_ok (db : list (str * table)) : database TABLES db -> no_sharp db -> (forall n, In n (map fst db) -> ~ In n TABLE) ->
  Forall (savable_table compiles) (map snd db) ->
  load_tables compiles (save_tables db) = Done (true, map (fun x => (fst x, kept_table (snd x))) db).
Proof.
  intros [S A] N K P.
  assert (F : save_tables db = file_of table_body db).
  { unfold save_tables, file_of. apply flat_map_ext. intros [n t]. reflexivity. }
  unfold load_tables. rewrite F. apply (load_file TABLES TABLE table_body kept_table (read_table compiles) (savable_table compiles) db tables_readable S P).
  - apply names_ok; assumption.
  - apply (file_printable TABLES); [exact A|]. eapply Forall_impl; [|exact P]. apply body_printable.
Qed.
End Reading.
