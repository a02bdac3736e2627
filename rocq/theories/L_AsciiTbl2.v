(** Lemmas on the ASCII files of tables: cells and lines. *)
From Coq Require Import ZArith Ascii String List Bool Lia Sorted Floats.SpecFloat.
From Verif Require Import M_Base M_Time M_Names M_Lex M_Compile M_Bytes M_Exec M_Double M_Decimal M_Kdb M_Ascii M_AsciiEqs M_AsciiTbl S_Time S_Names
  S_Ascii S_AsciiEqs S_AsciiTbl L_Time L_Names L_Kdb L_Decimal L_Round L_Round2 L_Round3 L_Round4 L_Ascii L_Ascii3 L_AsciiEqs L_AsciiTbl.
Import ListNotations.
Open Scope Z_scope.

Lemma quoted_unquoted t : unquoted t -> QUOTE :: t ++ [QUOTE] = quoted t.
Proof. intros U. unfold quoted. rewrite escaped_unquoted by exact U. reflexivity. Qed.
Definition flag (b : bool) (w : string) : list item := if b then [K [] w] else [].
Definition align_items (a : Z) : list item :=
  if a =? CENTER then [K [] "CENTER"] else if a =? DECIMAL then [K [] "DECIMAL"] else if a =? LEFT then [K [] "LEFT"] else if a =? RIGHT then [K [] "RIGHT"] else [].
Definition attr_items (c : cell) : list item :=
  flag (bold c) "BOLD" ++ flag (italic c) "ITALIC" ++ flag (underline c) "UNDERLINE" ++ align_items (align c).
Definition cell_items (c : cell) : list item :=
  match content c with
  | [] => [Q []]
  | t => if is_lec c then K [] "LEC" :: Q t :: attr_items c else Q t :: attr_items c
  end.
Lemma flag_text b w : flat_map shown (flag b w) = if b then S2L w ++ [SP] else [].
Proof. destruct b; [|reflexivity]. cbn [flag flat_map]. unfold shown, K. cbn [pre itext post app]. apply app_nil_r. Qed.
Lemma attr_text c : flat_map shown (attr_items c) = print_attribute c.
Proof.
  unfold attr_items, print_attribute. rewrite !flat_map_app, !flag_text. unfold align_items.
  destruct (bold c), (italic c), (underline c), (align c =? CENTER), (align c =? DECIMAL), (align c =? LEFT), (align c =? RIGHT); reflexivity.
Qed.
Definition writable_cell (c : cell) : Prop := is_lec c = true -> unquoted (content c).
Lemma savable_writable compiles c : savable_cell compiles c -> writable_cell c.
Proof.
  intros H E. unfold savable_cell in H. rewrite E in H. destruct (content c) as [|x t] eqn:C; [split; intros []|]. apply H. discriminate.
Qed.
Lemma cell_text c : writable_cell c -> flat_map shown (cell_items c) = print_cell c.
Proof.
  intros W. unfold writable_cell in W. unfold cell_items, print_cell. destruct (content c) as [|x t] eqn:C; [reflexivity|].
  destruct (is_lec c).
  - cbn [flat_map]. rewrite attr_text. unfold shown, K, Q. cbn [pre itext post]. rewrite <- (quoted_unquoted (x :: t)) by (apply W; reflexivity).
    repeat progress (rewrite <- ?app_assoc; cbn [app S2L list_ascii_of_string]). reflexivity.
  - cbn [flat_map]. rewrite attr_text. unfold shown, Q. cbn [pre itext post]. repeat progress (rewrite <- ?app_assoc; cbn [app]). reflexivity.
Qed.

Section Reading.
Variable compiles : str -> bool.
Local Notation good := L_AsciiTbl.good.
Lemma flag_good b w l : kword w -> Forall good l -> Forall good (flag b w ++ l).
Proof. intros Kw G. destruct b; [constructor; [apply good_K; [gp|exact Kw]|exact G]|exact G]. Qed.
Lemma align_good a : Forall good (align_items a).
Proof.
  unfold align_items. destruct (a =? CENTER); [|destruct (a =? DECIMAL); [|destruct (a =? LEFT); [|destruct (a =? RIGHT); [|constructor]]]];
    (constructor; [apply good_K; [gp|is_kword]|constructor]).
Qed.
Lemma attr_good c : Forall good (attr_items c).
Proof. unfold attr_items. apply flag_good; [is_kword|]. apply flag_good; [is_kword|]. apply flag_good; [is_kword|]. apply align_good. Qed.
Lemma cell_good c : savable_cell compiles c -> Forall good (cell_items c).
Proof.
  intros H. unfold savable_cell in H. unfold cell_items. destruct (content c) as [|x t].
  - constructor; [|constructor]. apply good_Q; [constructor| |cbn; lia]. intros a z b E. destruct a; discriminate E.
  - destruct (H ltac:(discriminate)) as ((PT & NC & L) & _). destruct (is_lec c); repeat (constructor; [first [apply good_K; [gp|is_kword]|apply good_Q; assumption]|]); apply attr_good.
Qed.

(** One more token. *)
Definition cell_next (k : nat) (ok : bool) (c : cell) (y : yy) : io (cell * yy) :=
  try '(l, y') <- lex TABLE y; cell_loop compiles k ok c l y'.
Lemma cell_loop_S k ok c l y : cell_loop compiles (S k) ok c l y =
  match attribute_of l c with
  | Some c' => cell_next k ok c' y
  | None =>
    if is_key l "LEC" then
      if ok then Done (c, unread y)
      else try '(l', y') <- lex TABLE y;
           if is_string l' then cell_next k true (with_align DECIMAL (set_cell_lec compiles (text y') c)) y' else cell_next k true c (unread y')
    else if is_string l then
      if ok then Done (c, unread y) else try c' <- set_cell_text (text y) c; cell_next k true c' y
    else Done (c, unread y)
  end.
Proof. reflexivity. Qed.
Definition ends (j : item) : Prop := forall c, attribute_of (itok j) c = None.
Lemma attr_step w p c c' k ok is tail y : good (K p w) -> Forall good is -> attribute_of (L_KEY (S2L w)) c = Some c' -> at_items (K p w :: is) tail y ->
  exists y1, cell_next (S k) ok c y = cell_next k ok c' y1 /\ at_items is tail y1.
Proof.
  intros G Gs A H. destruct (step _ _ _ _ G Gs H) as (y1 & E & _ & A1 & _). exists y1. split; [|exact A1].
  unfold cell_next at 1. rewrite E. cbn [ibind cell_loop itok K]. rewrite A. reflexivity.
Qed.
Lemma end_step j is tail y k c : good j -> Forall good is -> ends j -> at_items (j :: is) tail y ->
  exists y1, cell_next (S k) true c y = Done (c, y1) /\ at_items (j :: is) tail y1.
Proof.
  intros G Gs En H. destruct (step _ _ _ _ G Gs H) as (y1 & E & _ & _ & A2 & _). exists (unread y1). split; [|exact A2].
  unfold cell_next. rewrite E. cbn [ibind cell_loop]. rewrite (En c). destruct (is_key (itok j) "LEC"); [reflexivity|]. destruct (is_string (itok j)); reflexivity.
Qed.
Lemma flag_step (b : bool) w f c k is tail y : good (K [] w) -> Forall good is -> attribute_of (L_KEY (S2L w)) c = Some (f c) ->
  at_items (flag b w ++ is) tail y -> exists y1, cell_next (S k) true c y = cell_next (if b then k else S k) true (if b then f c else c) y1 /\ at_items is tail y1.
Proof.
  intros G Gs A H. destruct b; cbn [flag app] in H.
  - destruct (attr_step w [] c (f c) k true is tail y G Gs A H) as (y1 & E & A1). exists y1. split; assumption.
  - exists y. split; [reflexivity|exact H].
Qed.
Lemma attrs_loop c0 b i u a k j is tail y : one_alignment a -> good j -> Forall good is -> ends j ->
  at_items (attr_items (mkCell (is_lec c0) (content c0) b i u a) ++ j :: is) tail y ->
  bold c0 = false -> italic c0 = false -> underline c0 = false ->
  exists y1, cell_next (5 + k) true c0 y = Done (mkCell (is_lec c0) (content c0) b i u a, y1) /\ at_items (j :: is) tail y1.
Proof.
  intros Al G Gs En H Hb Hi Hu. unfold attr_items in H. cbn [bold italic underline align] in H. rewrite <- !app_assoc in H.
  assert (GA : Forall good (align_items a ++ j :: is)).
  { apply Forall_app. split; [apply align_good|constructor; assumption]. }
  pose proof flag_good as GF.
  cbn [Nat.add].
  destruct (flag_step b "BOLD" (fun c => with_fonts true (italic c) (underline c) c) c0 (4 + k) (flag i "ITALIC" ++ flag u "UNDERLINE" ++ align_items a ++ j :: is) tail y
    ltac:(apply good_K; [gp|is_kword]) ltac:(apply GF; [is_kword|apply GF; [is_kword|exact GA]]) eq_refl H) as (y1 & E1 & H1).
  cbn [Nat.add] in E1. rewrite E1. clear E1 H y.
  set (c1 := if b then _ else c0) in *.
  set (k1 := if b then S (S (S (S k))) else _).
  assert (K1 : exists m, k1 = (4 + m)%nat) by (unfold k1; destruct b; eexists; reflexivity). destruct K1 as [m1 ->].
  destruct (flag_step i "ITALIC" (fun c => with_fonts (bold c) true (underline c) c) c1 (3 + m1) (flag u "UNDERLINE" ++ align_items a ++ j :: is) tail y1
    ltac:(apply good_K; [gp|is_kword]) ltac:(apply GF; [is_kword|exact GA]) eq_refl H1) as (y2 & E2 & H2).
  cbn [Nat.add] in E2 |- *. rewrite E2. clear E2 H1 y1.
  set (c2 := if i then _ else c1) in *. set (k2 := if i then _ else _).
  assert (K2 : exists m, k2 = (3 + m)%nat) by (unfold k2; destruct i; eexists; reflexivity). destruct K2 as [m2 ->].
  destruct (flag_step u "UNDERLINE" (fun c => with_fonts (bold c) (italic c) true c) c2 (2 + m2) (align_items a ++ j :: is) tail y2
    ltac:(apply good_K; [gp|is_kword]) GA eq_refl H2) as (y3 & E3 & H3).
  cbn [Nat.add] in E3 |- *. rewrite E3. clear E3 H2 y2.
  set (c3 := if u then _ else c2) in *. set (k3 := if u then _ else _).
  assert (K3 : exists m, k3 = (2 + m)%nat) by (unfold k3; destruct u; eexists; reflexivity). destruct K3 as [m3 ->]. cbn [Nat.add].
  assert (X : exists y4, cell_next (S (S m3)) true c3 y3 = cell_next (S m3) true (with_align a c3) y4 /\ at_items (j :: is) tail y4).
  { destruct Al as [-> | [-> | [-> | ->]]]; cbn [align_items Z.eqb Pos.eqb CENTER DECIMAL LEFT RIGHT app] in H3;
      (refine (attr_step _ _ _ _ _ _ _ _ _ _ _ _ H3); [apply good_K; [gp|is_kword]|constructor; assumption|reflexivity]). }
  destruct X as (y4 & E4 & H4). rewrite E4. destruct (end_step j is tail y4 m3 (with_align a c3) G Gs En H4) as (y5 & E5 & H5). exists y5. split; [|exact H5].
  rewrite E5. do 2 f_equal. unfold with_align, c3, c2, c1, with_fonts. destruct b, i, u; cbn; rewrite ?Hb, ?Hi, ?Hu; reflexivity.
Qed.

Lemma set_text_ok t c : t <> [] -> (forall u, t <> chr 34 :: u) -> (forall u, t <> u ++ [chr 34]) ->
  exists a, set_cell_text t c = Done (mkCell false t (bold c) (italic c) (underline c) a).
Proof.
  intros NE A B. unfold set_cell_text. eexists. destruct t as [|x t']; [congruence|].
  replace (code x =? 34) with false by (symmetry; apply Z.eqb_neq; intros E; apply (A t'); f_equal; apply code_eq; [lia|exact E]).
  destruct (rev (x :: t')) as [|z v] eqn:R; [apply (f_equal (@length ascii)) in R; rewrite rev_length in R; discriminate R|].
  replace (code z =? 34) with false; [reflexivity|]. symmetry; apply Z.eqb_neq; intros E.
  apply (B (rev v)). rewrite <- (rev_involutive (x :: t')), R. cbn [rev]. f_equal. f_equal. apply code_eq; [lia|exact E].
Qed.
Lemma attr_items_length c : one_alignment (align c) -> (1 <= length (attr_items c))%nat.
Proof.
  intros A. unfold attr_items. rewrite !app_length. assert (length (align_items (align c)) = 1%nat) by (destruct A as [-> | [-> | [-> | ->]]]; reflexivity). lia.
Qed.
Lemma read_cell_items only c j is tail y : savable_cell compiles c -> (only = true -> content c <> [] -> is_lec c = false) ->
  good j -> Forall good is -> ends j -> at_items (cell_items c ++ j :: is) tail y ->
  exists y1, read_cell compiles only y = Done (Some (kept_cell c), y1) /\ at_items (j :: is) tail y1.
Proof.
  intros H O G Gs En A. pose proof (cell_good c H) as GC. unfold savable_cell in H. unfold cell_items in *. unfold kept_cell. unfold read_cell.
  assert (GJ : Forall good (j :: is)) by (constructor; assumption).
  destruct (content c) as [|x t] eqn:C.
  - cbn [app] in A. inversion GC as [|? ? GQ _]; subst. destruct (step _ _ _ _ GQ GJ A) as (y1 & E & T & A1 & _ & L). rewrite E. cbn [ibind itok Q iw] in *.
    cbn [is_string negb]. rewrite andb_false_r. unfold fuel_of. rewrite cell_loop_S.
    change (attribute_of (L_TYPE Y_STRING) empty_cell) with (@None cell). cbv iota. change (is_key (L_TYPE Y_STRING) "LEC") with false. cbn [is_string]. cbv iota.
    rewrite T. change (set_cell_text [] empty_cell) with (Done empty_cell). cbn [ibind].
    destruct (end_step j is tail y1 (2 * length (rest y1)) empty_cell G Gs En A1) as (y2 & E2 & A2). rewrite E2. cbn [ibind]. exists y2. split; [reflexivity|exact A2].
  - destruct (H ltac:(discriminate)) as (_ & Al & Ty). destruct (is_lec c) eqn:IL.
    + destruct only; [discriminate (O eq_refl ltac:(discriminate))|]. cbn [andb].
      cbn [app] in A. inversion GC as [|? ? GK GC1]; subst. inversion GC1 as [|? ? GQ GA]; subst.
      assert (GR : Forall good (attr_items c ++ j :: is)) by (apply Forall_app; split; assumption).
      destruct (step _ _ _ _ GK ltac:(constructor; [exact GQ|exact GR]) A) as (y1 & E & _ & A1 & _ & L1). rewrite E. cbn [ibind itok K].
      destruct (step _ _ _ _ GQ GR A1) as (y2 & E2 & T2 & A2 & _ & L2).
      unfold fuel_of. rewrite cell_loop_S. change (attribute_of (L_KEY (S2L "LEC")) empty_cell) with (@None cell). cbv iota. change (is_key (L_KEY (S2L "LEC")) "LEC") with true. cbv iota.
      rewrite E2. cbn [ibind itok Q is_string]. rewrite T2. cbn [iw Q].
      pose proof (attr_items_length c Al) as LA. cbn [length] in L1. rewrite app_length in L1. cbn [length] in L1.
      destruct (Nat.le_exists_sub 5 (S (2 * length (rest y1))) ltac:(lia)) as (k & Ek & _). rewrite Nat.add_comm in Ek.
      set (c0 := with_align DECIMAL (set_cell_lec compiles (x :: t) empty_cell)).
      destruct Ty as (_ & Cp).
      assert (I0 : is_lec c0 = true /\ content c0 = x :: t) by (split; [reflexivity|]; unfold c0, with_align, set_cell_lec, lec_of; cbn [content]; rewrite Cp; reflexivity). destruct I0 as (I0 & I1).
      destruct (attrs_loop c0 (bold c) (italic c) (underline c) (align c) k j is tail y2 Al G Gs En) as (y3 & E3 & A3); try reflexivity.
      { rewrite I0, I1. rewrite <- IL, <- C. destruct c; exact A2. }
      rewrite <- Ek in E3. rewrite E3. cbn [ibind]. exists y3. split; [|exact A3]. rewrite I0, I1, <- IL, <- C. destruct c; reflexivity.
    + cbn [app] in A. inversion GC as [|? ? GQ GA]; subst.
      assert (GR : Forall good (attr_items c ++ j :: is)) by (apply Forall_app; split; assumption).
      destruct (step _ _ _ _ GQ GR A) as (y1 & E & T & A1 & _ & L1). rewrite E. cbn [ibind itok Q iw] in *.
      cbn [is_string negb]. rewrite andb_false_r. unfold fuel_of. rewrite cell_loop_S.
      change (attribute_of (L_TYPE Y_STRING) empty_cell) with (@None cell). cbv iota. change (is_key (L_TYPE Y_STRING) "LEC") with false. cbn [is_string]. cbv iota.
      rewrite T. destruct Ty as (Q1 & Q2). destruct (set_text_ok (x :: t) empty_cell ltac:(discriminate) Q1 Q2) as (a0 & ->). cbn [ibind].
      pose proof (attr_items_length c Al) as LA. rewrite app_length in L1. cbn [length] in L1.
      destruct (Nat.le_exists_sub 5 (S (2 * length (rest y1))) ltac:(lia)) as (k & Ek & _). rewrite Nat.add_comm in Ek.
      set (c0 := mkCell false (x :: t) _ _ _ a0).
      destruct (attrs_loop c0 (bold c) (italic c) (underline c) (align c) k j is tail y1 Al G Gs En) as (y3 & E3 & A3); try reflexivity.
      { cbn [is_lec content c0]. rewrite <- IL, <- C. destruct c; exact A1. }
      rewrite <- Ek in E3. rewrite E3. cbn [ibind]. exists y3. split; [|exact A3]. cbn [is_lec content c0]. rewrite <- IL, <- C. destruct c; reflexivity.
Qed.
Lemma first_ends c is j : ends j -> match cell_items c ++ j :: is with i :: _ => ends i | [] => True end.
Proof. intros E. unfold cell_items. destruct (content c); [intros d; reflexivity|]. destruct (is_lec c); intros d; reflexivity. Qed.
Lemma cells_good cs : Forall (savable_cell compiles) cs -> Forall good (flat_map cell_items cs).
Proof.
  intros H. induction H as [|c cs Hc _ IH]; [constructor|]. cbn [flat_map]. apply Forall_app. split; [apply cell_good; exact Hc|exact IH].
Qed.
Lemma read_cells_items cs : forall j is tail y, Forall (savable_cell compiles) cs -> good j -> Forall good is -> ends j ->
  at_items (flat_map cell_items cs ++ j :: is) tail y ->
  exists y1, read_cells compiles (length cs) y = Done (map kept_cell cs, y1) /\ at_items (j :: is) tail y1.
Proof.
  induction cs as [|c cs IH]; intros j is tail y H G Gs En A.
  - exists y. split; [reflexivity|exact A].
  - inversion H as [|? ? Hc Hcs]; subst. cbn [flat_map] in A. rewrite <- app_assoc in A. cbn [length read_cells map].
    assert (X : exists j' is', flat_map cell_items cs ++ j :: is = j' :: is' /\ ends j' /\ good j' /\ Forall good is').
    { assert (GG : Forall good (flat_map cell_items cs ++ j :: is)) by (apply Forall_app; split; [apply cells_good; exact Hcs|constructor; assumption]).
      destruct cs as [|c' cs']; [exists j, is; auto|]. cbn [flat_map] in GG |- *. rewrite <- app_assoc in GG |- *.
      destruct (flat_map cell_items cs' ++ j :: is) as [|j2 is2] eqn:E2; [destruct (flat_map cell_items cs'); discriminate E2|].
      revert GG. unfold cell_items. destruct (content c') as [|x t]; [|destruct (is_lec c')]; cbn [app]; intros GG; inversion GG; subst;
        (eexists _, _; split; [reflexivity|]; split; [intros d; reflexivity|]; split; assumption). }
    destruct X as (j' & is' & E' & En' & G' & Gs'). rewrite E' in A.
    destruct (read_cell_items false c j' is' tail y Hc ltac:(discriminate) G' Gs' En' A) as (y1 & E1 & A1). rewrite E1. cbn [ibind].
    rewrite <- E' in A1. destruct (IH j is tail y1 Hcs G Gs En A1) as (y2 & E2 & A2). rewrite E2. cbn [ibind]. exists y2. split; [reflexivity|exact A2].
Qed.
End Reading.
