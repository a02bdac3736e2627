(** Property C100: tables saved in an ASCII file and loaded again. *)
From Coq Require Import ZArith Ascii String List Bool Lia Sorted Floats.SpecFloat.
From Verif Require Import M_Base M_Time M_Names M_Lex M_Compile M_Bytes M_Double M_Decimal M_Kdb M_Ascii M_AsciiEqs M_AsciiTbl S_Names S_Ascii S_AsciiTbl
  L_Names L_Ascii L_Ascii3 T_Ascii T_Ascii2 L_AsciiTbl4.
Import ListNotations.
Open Scope Z_scope.

(** The tables come back in their order, but for empty cells, scatter graphs, the decimals of the limits and three fields. *)
Theorem C100_tables_partial : forall compiles db, database TABLES db -> no_sharp db -> (forall n, In n (map fst db) -> ~ In n TABLE) ->
  Forall (savable_table compiles) (map snd db) ->
  load_tables compiles (save_tables db) = Done (true, map (fun x => (fst x, kept_table (snd x))) db).
Proof. exact load_tables_ok. Qed.

Lemma cell_kept c : cell_as_is c -> kept_cell c = c.
Proof. unfold cell_as_is, kept_cell. intros H. destruct (content c); [symmetry; apply H; reflexivity|reflexivity]. Qed.
Lemma cells_kept l : Forall cell_as_is l -> map kept_cell l = l.
Proof. induction 1 as [|c l H _ IH]; [reflexivity|]. cbn [map]. rewrite cell_kept, IH by exact H. reflexivity. Qed.
Lemma line_kept x : line_as_is x -> kept_line x = x.
Proof.
  unfold line_as_is, kept_line. destruct x as [k cs g r]. cbn [kind cells graph right_axis].
  destruct k; try (intros (-> & -> & ->); reflexivity).
  - intros [C [-> | ->]]; rewrite cells_kept by exact C; reflexivity.
  - intros (C & -> & ->). rewrite cells_kept by exact C. reflexivity.
Qed.
Lemma table_kept t : table_as_is t -> kept_table t = t.
Proof.
  intros (D & L & O & M). unfold kept_table. destruct t as [c l b a gx gy ta y1 y2 z1 z2 d ls o]. cbn [columns language box axis gridx gridy text_align ymin ymax zmin zmax divider tlines others] in *.
  inversion M as [|? ? M1 M']; subst. inversion M' as [|? ? M2 M'']; subst. inversion M'' as [|? ? M3 M''']; subst. inversion M''' as [|? ? M4 _]; subst.
  rewrite M1, M2, M3, M4, cells_kept by exact D. f_equal. induction L as [|x ls Lx _ IH]; [reflexivity|]. cbn [map]. rewrite line_kept, IH by exact Lx. reflexivity.
Qed.
(** Such tables without what is lost: the same database. *)
Theorem C100_unchanged_partial : forall compiles db, database TABLES db -> no_sharp db -> (forall n, In n (map fst db) -> ~ In n TABLE) ->
  Forall (savable_table compiles) (map snd db) -> Forall table_as_is (map snd db) ->
  load_tables compiles (save_tables db) = Done (true, db).
Proof.
  intros compiles db D N K P A. rewrite C100_tables_partial by assumption. do 2 f_equal. clear -A. induction db as [|[n t] db IH]; [reflexivity|].
  cbn [map snd fst] in *. inversion A; subst. rewrite table_kept, IH by assumption. reflexivity.
Qed.
(** A second save and load changes nothing but the limits that are not kept. *)
Lemma kept_cell_twice c : kept_cell (kept_cell c) = kept_cell c.
Proof. unfold kept_cell. destruct (content c) eqn:E; [reflexivity|]. rewrite E. reflexivity. Qed.
Lemma kept_line_twice x : kept_line (kept_line x) = kept_line x.
Proof.
  unfold kept_line. destruct x as [k cs g r]. destruct k; cbn [kind cells graph right_axis]; try reflexivity; f_equal; try (rewrite map_map; apply map_ext, kept_cell_twice).
  destruct (g =? 2); reflexivity.
Qed.
Theorem C100_lines_settle : forall t, tlines (kept_table (kept_table t)) = tlines (kept_table t) /\ divider (kept_table (kept_table t)) = divider (kept_table t).
Proof.
  intros t. split; cbn [kept_table tlines divider]; rewrite map_map; [apply map_ext, kept_line_twice|apply map_ext, kept_cell_twice].
Qed.

(** * Cases *)
Definition any_formula (t : str) : bool := true.
Definition txt (s : string) : cell := mkCell false (S2L s) false false false 16.
Definition frm (s : string) : cell := mkCell true (S2L s) false false false 64.
Definition half : dbl := d_dec 5 1.
Definition tbl1 : table := mkTable 2 FRENCH 1 2 0 1 1 (SFopp half) (d_ofZ 100) no_limit no_limit [frm "1"; mkCell true [] false false false 64]
  [ mkLine L_TITLE [mkCell false (S2L "Rates ""in %"" of GDP") true false false 8] 0 false;
    mkLine L_SEP [] 0 false;
    mkLine L_CELL [mkCell false (S2L "Output") false true false 16; frm "(Q / Q[-1] - 1) * 100"] 2 true;
    mkLine L_CELL [mkCell false [] true true true 8; frm "X"] 1 false;
    mkLine L_MODE [] 0 false; mkLine L_FILES [] 0 false; mkLine L_DATE [] 0 false ] (3, 4, 5).
Definition tbl2 : table := mkTable 2 ENGLISH 0 0 0 0 0 no_limit half no_limit no_limit [frm "1"; empty_cell]
  [ mkLine L_CELL [txt "A #S"; frm "A"] 0 false; mkLine L_TITLE [empty_cell] 0 false ] (0, 0, 0).
Definition ex_db : list (str * table) := [(S2L "T1", tbl1); (S2L "T2", tbl2)].
Lemma plain_check t : forallb (fun c => (32 <=? code c) && negb (code c =? 94)) t && (length t <? 4000)%nat = true -> plain t.
Proof.
  rewrite andb_true_iff, forallb_forall. intros [H L]. split; [apply Forall_forall; intros c I; apply H in I; lia|]. split.
  - intros a c b ->. specialize (H (chr 94) ltac:(apply in_or_app; right; left; reflexivity)). discriminate H.
  - apply Nat.ltb_lt in L. lia.
Qed.
Lemma text_ok c : is_lec c = false -> forallb (fun x => (32 <=? code x) && negb (code x =? 94)) (content c) && (length (content c) <? 4000)%nat = true -> one_alignment (align c) ->
  code (hd SP (content c)) <> 34 -> code (last (content c) SP) <> 34 -> savable_cell any_formula c.
Proof.
  intros K P A H L _. split; [apply plain_check, P|]. split; [exact A|]. rewrite K. split.
  - intros u E. rewrite E in H. apply H. reflexivity.
  - intros u E. rewrite E, last_last in L. apply L. reflexivity.
Qed.
Lemma formula_ok s : forallb (fun x => (32 <=? code x) && negb (code x =? 94)) (S2L s) && (length (S2L s) <? 4000)%nat = true ->
  forallb (fun c => negb (code c =? 34) && negb (code c =? 92)) (S2L s) = true -> savable_cell any_formula (frm s).
Proof.
  intros P U _. split; [apply plain_check, P|]. split; [right; right; right; reflexivity|]. split; [|reflexivity]. rewrite forallb_forall in U.
  split; intros X; apply U in X; discriminate X.
Qed.
Ltac cell_case := first [ intros X; exfalso; apply X; reflexivity | apply formula_ok; reflexivity
  | apply text_ok; [reflexivity|reflexivity|unfold one_alignment; cbn; tauto|cbn; discriminate|cbn; discriminate] ].
Example C100_case : database TABLES ex_db /\ no_sharp ex_db /\ (forall n, In n (map fst ex_db) -> ~ In n TABLE) /\ Forall (savable_table any_formula) (map snd ex_db).
Proof.
  split; [split; [repeat constructor|repeat constructor; apply regex_iff; reflexivity]|]. split; [intros n [<-|[<-|[]]]; cbn; intuition discriminate|].
  split; [intros n [<-|[<-|[]]]; cbn; intuition discriminate|].
  assert (Lm : forall v, (negb (d_num v) || match v with S754_infinity _ | S754_nan => false | _ => numer v <? denom v * 10 ^ 38 end = true) -> savable_limit v).
  { intros v H N. rewrite N in H. cbn [negb orb] in H. destruct v; try discriminate H; apply Z.ltb_lt, H. }
  constructor; [|constructor; [|constructor]].
  - cbn [snd]. unfold savable_table, tbl1, char_value. cbn [columns language box axis gridx gridy text_align ymin ymax zmin zmax divider tlines others]. repeat (split; [lia|]).
    split; [repeat (apply Forall_cons; [apply Lm; vm_compute; reflexivity|]); apply Forall_nil|]. split; [reflexivity|]. split; [repeat (apply Forall_cons; [cell_case|]); apply Forall_nil|].
    constructor; [eexists; split; [reflexivity|]; split; [cell_case|reflexivity]|]. constructor; [exact I|].
    constructor; [split; [reflexivity|]; repeat (apply Forall_cons; [cell_case|]); apply Forall_nil|]. constructor; [split; [reflexivity|]; repeat (apply Forall_cons; [cell_case|]); apply Forall_nil|]. repeat constructor.
  - cbn [snd]. unfold savable_table, tbl2, char_value. cbn [columns language box axis gridx gridy text_align ymin ymax zmin zmax divider tlines others]. repeat (split; [lia|]).
    split; [repeat (apply Forall_cons; [apply Lm; vm_compute; reflexivity|]); apply Forall_nil|]. split; [reflexivity|]. split; [repeat (apply Forall_cons; [cell_case|]); apply Forall_nil|].
    constructor; [split; [reflexivity|]; repeat (apply Forall_cons; [cell_case|]); apply Forall_nil|]. constructor; [|constructor]. eexists. split; [reflexivity|]. split; [cell_case|reflexivity].
Qed.
Example C100_case_2 : kept_table tbl2 = tbl2 /\ kept_table tbl1 = mkTable 2 FRENCH 1 2 0 1 1 (SFopp half) (d_ofZ 100) no_limit no_limit [frm "1"; empty_cell]
  [ mkLine L_TITLE [mkCell false (S2L "Rates ""in %"" of GDP") true false false 8] 0 false;
    mkLine L_SEP [] 0 false;
    mkLine L_CELL [mkCell false (S2L "Output") false true false 16; frm "(Q / Q[-1] - 1) * 100"] 2 true;
    mkLine L_CELL [empty_cell; frm "X"] 0 false;
    mkLine L_MODE [] 0 false; mkLine L_FILES [] 0 false; mkLine L_DATE [] 0 false ] (0, 0, 0).
Proof. split; vm_compute; reflexivity. Qed.
Example C100_as_is : table_as_is tbl2.
Proof.
  unfold table_as_is, tbl2. cbn [columns language box axis gridx gridy text_align ymin ymax zmin zmax divider tlines others].
  split; [repeat (apply Forall_cons; [intros X; solve [discriminate X|reflexivity]|]); apply Forall_nil|]. split.
  - constructor; [split; [repeat (apply Forall_cons; [intros X; discriminate X|]); apply Forall_nil|left; reflexivity]|]. constructor; [|constructor]. split; [repeat (apply Forall_cons; [intros _; reflexivity|]); apply Forall_nil|]. split; reflexivity.
  - split; [reflexivity|]. repeat constructor; vm_compute; reflexivity.
Qed.

(** One table with one line of cells, and what comes back for it. *)
Definition with_line (x : tline) : table := mkTable 2 ENGLISH 0 0 0 0 0 no_limit no_limit no_limit no_limit [frm "1"; empty_cell] [x] (0, 0, 0).
Definition back (t : table) : io (list tline) :=
  try '(_, db) <- load_tables any_formula (save_tables [(S2L "T", t)]); Done (flat_map (fun x => tlines (snd x)) db).
(** A scatter graph is written as a line. *)
Theorem C100_scatter_refuted : back (with_line (mkLine L_CELL [txt "A"; frm "A"] 1 true)) = Done [mkLine L_CELL [txt "A"; frm "A"] 0 true].
Proof. vm_compute. reflexivity. Qed.
(** A formula that is still empty becomes a text: the column of numbers is a column of texts after a save and a load. *)
Theorem C100_empty_formula_refuted : back (with_line (mkLine L_CELL [txt "A"; mkCell true [] false false false 64] 0 false)) = Done [mkLine L_CELL [txt "A"; empty_cell] 0 false].
Proof. vm_compute. reflexivity. Qed.
(** The quotes around a text are removed; a text that is one quote is an access before an empty text. *)
Theorem C100_quotes_refuted : back (with_line (mkLine L_CELL [txt """net"""; frm "A"] 0 false)) = Done [mkLine L_CELL [txt "net"; frm "A"] 0 false] /\
  back (with_line (mkLine L_CELL [txt """"; frm "A"] 0 false)) = Undefined.
Proof. split; vm_compute; reflexivity. Qed.
(** The title may hold a formula, which is saved and cannot be loaded: a null pointer. *)
Theorem C100_title_refuted : back (with_line (mkLine L_TITLE [frm "A"] 0 false)) = Undefined.
Proof. vm_compute. reflexivity. Qed.
(** A quote in a formula (in a comment of it) is not protected: it cuts the formula. *)
Theorem C100_formula_quote_refuted : exists l, back (with_line (mkLine L_CELL [txt "A"; frm "A /* ""x"" */"] 0 false)) = Done l /\
  l <> [mkLine L_CELL [txt "A"; frm "A /* ""x"" */"] 0 false].
Proof. eexists. split; [vm_compute; reflexivity|]. discriminate. Qed.
(** A negative number in the header is lost: the minus is a keyword, read as the start of a line. *)
Theorem C100_header_refuted : exists t, load_tables any_formula (save_tables [(S2L "T", mkTable 2 ENGLISH (-1) 0 0 0 0 no_limit no_limit no_limit no_limit [frm "1"; empty_cell] [] (0, 0, 0))])
  = Done (true, [(S2L "T", t)]) /\ box t = 0 /\ length (tlines t) = 1%nat.
Proof. eexists. split; [vm_compute; reflexivity|]. split; reflexivity. Qed.
(** Small limits become 0. *)
Theorem C100_limit_refuted : d_num (d_dec 1 7) = true /\ kept_limit (to_float (d_dec 1 7)) = S754_zero false.
Proof. split; vm_compute; reflexivity. Qed.
(** A table whose name is a keyword of the file is saved and not loaded. *)
Theorem C100_name_refuted : accepted TABLES (S2L "TITLE") /\ exists b, load_tables any_formula (save_tables [(S2L "TITLE", tbl2)]) = Done (b, []).
Proof. split; [apply regex_iff; reflexivity|]. eexists. vm_compute. reflexivity. Qed.
(** A file that ends within a table: the loop never ends, whatever the number of its steps. *)
Theorem C100_unclosed_refuted : forall compiles n t w ty, table_loop compiles n t (mkY [] ty w false) = Unmodelled.
Proof.
  intros compiles n. induction n as [|n IH]; intros t w ty; [reflexivity|]. cbn [table_loop].
  replace (lex TABLE (mkY [] ty w false)) with (Done (L_TYPE Y_EOF, mkY [] Y_EOF w false)) by reflexivity. cbn [ibind]. apply IH.
Qed.

Print Assumptions C100_tables_partial.
Print Assumptions C100_unchanged_partial.
Print Assumptions C100_lines_settle.
Print Assumptions C100_scatter_refuted.
Print Assumptions C100_empty_formula_refuted.
Print Assumptions C100_quotes_refuted.
Print Assumptions C100_title_refuted.
Print Assumptions C100_formula_quote_refuted.
Print Assumptions C100_header_refuted.
Print Assumptions C100_limit_refuted.
Print Assumptions C100_name_refuted.
Print Assumptions C100_unclosed_refuted.
