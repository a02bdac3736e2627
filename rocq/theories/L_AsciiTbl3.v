(** Lemmas on the ASCII files of tables: lines, headers and whole tables. *)
From Coq Require Import ZArith Ascii String List Bool Lia Sorted Floats.SpecFloat.
From Verif Require Import M_Base M_Time M_Names M_Lex M_Compile M_Bytes M_Exec M_Double M_Decimal M_Kdb M_Ascii M_AsciiEqs M_AsciiTbl S_Time S_Names
  S_Ascii S_AsciiEqs S_AsciiTbl L_Time L_Names L_Kdb L_Decimal L_Round L_Round2 L_Round3 L_Round4 L_Ascii L_Ascii3 L_AsciiEqs L_AsciiTbl L_AsciiTbl2.
Import ListNotations.
Open Scope Z_scope.

Section Reading.
Variable compiles : str -> bool.
Local Notation good := L_AsciiTbl.good.
(** Tokens that end a line. *)
Definition stops (j : item) : Prop := ends j /\ (forall x, graph_of (itok j) x = None) /\ good j.
Definition opens (is : list item) : Prop := exists j is', is = j :: is' /\ stops j /\ Forall good is'.
Lemma opens_good is : opens is -> Forall good is.
Proof. intros (j & is' & -> & (_ & _ & G) & Gs). constructor; assumption. Qed.
Ltac stop := split; [intros ?; reflexivity|split; [intros ?; reflexivity|]].

Lemma line_loop_S k cols x y : line_loop compiles (S k) cols x y =
  try '(l, y1) <- lex TABLE y;
    match l with
    | L_TYPE Y_EOF => Done (x, unread y1)
    | _ =>
      match attribute_of l empty_cell with
      | Some _ => line_loop compiles k cols x y1
      | None =>
        match graph_of l (match x with Some t => t | None => empty_line L_CELL end), x with
        | Some t, Some _ => line_loop compiles k cols (Some t) y1
        | Some _, None => Undefined
        | None, Some t => Done (Some t, unread y1)
        | None, None =>
          match simple_line l with
          | Some kd => line_loop compiles k cols (Some (empty_line kd)) y1
          | None =>
            if is_key l "TITLE" then
              try '(c, y2) <- read_cell compiles true y1;
              match c with
              | None => Undefined
              | Some c => line_loop compiles k cols (Some (mkLine L_TITLE [c] 0 false)) y2
              end
            else if is_key l "-" then Done (Some (mkLine L_TITLE [empty_cell] 0 false), unread y1)
            else
              try '(cs, y2) <- read_cells compiles cols (unread y1);
              line_loop compiles k cols (Some (mkLine L_CELL cs 0 false)) y2
          end
        end
      end
    end.
Proof. reflexivity. Qed.
Lemma line_key w p k cols x is tail y : good (K p w) -> Forall good is -> at_items (K p w :: is) tail y ->
  attribute_of (L_KEY (S2L w)) empty_cell = None ->
  match graph_of (L_KEY (S2L w)) x with
  | Some t => exists y1, line_loop compiles (S k) cols (Some x) y = line_loop compiles k cols (Some t) y1 /\ at_items is tail y1
  | None => True
  end.
Proof.
  intros G Gs A At. destruct (graph_of (L_KEY (S2L w)) x) as [t|] eqn:Gr; [|trivial].
  destruct (step _ _ _ _ G Gs A) as (y1 & E & _ & A1 & _). exists y1. split; [|exact A1].
  rewrite line_loop_S, E. cbn [ibind itok K]. rewrite At, Gr. reflexivity.
Qed.
Lemma line_stop k cols x is tail y : opens is -> at_items is tail y ->
  exists y1, line_loop compiles (S k) cols (Some x) y = Done (Some x, y1) /\ at_items is tail y1.
Proof.
  intros (j & is' & -> & (En & Gr & G) & Gs) A. destruct (step _ _ _ _ G Gs A) as (y1 & E & _ & _ & A1 & _). exists (unread y1). split; [|exact A1].
  rewrite line_loop_S, E. cbn [ibind]. rewrite (En empty_cell), (Gr x). destruct G as (_ & _ & _ & _ & NE & _).
  destruct (itok j) as [[]| |]; congruence || reflexivity.
Qed.

Definition graph_items (x : tline) : list item :=
  [K [SP] (if right_axis x then "RAXIS" else "LAXIS"); K [SP] (if graph x =? 2 then "GRBAR" else "GRLINE")].
Definition line_items (x : tline) : list item :=
  match kind x with
  | L_CELL => flat_map cell_items (cells x) ++ graph_items x
  | L_TITLE => K [] "TITLE" :: cell_items (hd empty_cell (cells x))
  | L_SEP => [K [] "LINE"] | L_MODE => [K [] "MODE"] | L_DATE => [K [] "DATE"] | L_FILES => [K [] "FILES"]
  end.
Lemma graph_good x : Forall good (graph_items x).
Proof. unfold graph_items. destruct (right_axis x), (graph x =? 2); (constructor; [apply good_K; [gp|is_kword]|constructor; [apply good_K; [gp|is_kword]|constructor]]). Qed.
Lemma line_good cols x : savable_line compiles cols x -> Forall good (line_items x).
Proof.
  intros H. unfold savable_line in H. unfold line_items. destruct (kind x); try (constructor; [apply good_K; [gp|is_kword]|constructor]).
  - apply Forall_app. split; [apply (cells_good compiles), H|apply graph_good].
  - destruct H as (c & -> & Hc & _). constructor; [apply good_K; [gp|is_kword]|]. cbn [hd]. apply (cell_good compiles), Hc.
Qed.
Lemma cells_text cs : Forall (savable_cell compiles) cs -> flat_map shown (flat_map cell_items cs) = flat_map print_cell cs.
Proof.
  intros H. induction H as [|c cs Hc _ IH]; [reflexivity|]. cbn [flat_map]. rewrite flat_map_app, IH, (cell_text c (savable_writable compiles c Hc)). reflexivity.
Qed.
Lemma line_text cols x : savable_line compiles cols x -> flat_map shown (Sg [LF] 45 [SP] :: line_items x) = print_line x.
Proof.
  intros H. unfold savable_line in H. unfold line_items, print_line. cbn [flat_map]. change (shown (Sg [LF] 45 [SP])) with (line_feed "- "). f_equal.
  destruct (kind x); try reflexivity.
  - cbn [kind_text app]. rewrite flat_map_app, cells_text by apply H. f_equal. unfold graph_items, print_graph. destruct (right_axis x), (graph x =? 2); reflexivity.
  - destruct H as (c & -> & Hc & _). cbn [hd flat_map]. rewrite (cell_text c (savable_writable compiles c Hc)). reflexivity.
Qed.
Lemma first_cell c r : exists i l, cell_items c ++ r = i :: l /\ (itok i = L_TYPE Y_STRING \/ itok i = L_KEY (S2L "LEC")).
Proof.
  unfold cell_items. destruct (content c) as [|x t]; [|destruct (is_lec c)]; cbn [app]; eexists _, _; (split; [reflexivity|]); cbn; auto.
Qed.
Lemma read_line_items cols x is tail y k : 0 < cols -> savable_line compiles cols x -> opens is -> at_items (line_items x ++ is) tail y ->
  exists y1, line_loop compiles (4 + k) (Z.to_nat cols) None y = Done (Some (kept_line x), y1) /\ at_items is tail y1.
Proof.
  intros Hc H O A. pose proof (opens_good _ O) as GO. pose proof (line_good cols x H) as GL. unfold savable_line in H. unfold line_items in *. unfold kept_line.
  assert (S1 : forall w kd, good (K [] w) -> attribute_of (L_KEY (S2L w)) empty_cell = None -> graph_of (L_KEY (S2L w)) (empty_line L_CELL) = None ->
    simple_line (L_KEY (S2L w)) = Some kd -> at_items ([K [] w] ++ is) tail y ->
    exists y1, line_loop compiles (4 + k) (Z.to_nat cols) None y = Done (Some (mkLine kd [] 0 false), y1) /\ at_items is tail y1).
  { intros w kd G At Gr Si Aw. cbn [app] in Aw. destruct (step _ _ _ _ G GO Aw) as (y1 & E & _ & A1 & _). cbn [Nat.add]. rewrite line_loop_S, E. cbn [ibind itok K].
    rewrite At, Gr, Si. apply (line_stop (S (S k))); assumption. }
  destruct (kind x); try (refine (S1 _ _ _ _ _ _ A); [inversion GL; assumption|reflexivity|reflexivity|reflexivity]).
  - destruct H as (Hn & Hs). assert (Hn' : Z.to_nat cols = length (cells x)) by lia. rewrite Hn'.
    destruct (cells x) as [|c cs] eqn:C; [cbn in Hn; lia|]. rewrite <- app_assoc in A.
    assert (GA : Forall good (flat_map cell_items (c :: cs) ++ graph_items x ++ is)).
    { rewrite app_assoc. apply Forall_app. split; assumption. }
    destruct (first_cell c (flat_map cell_items cs ++ graph_items x ++ is)) as (i & l & Ei & Ti).
    assert (El : flat_map cell_items (c :: cs) ++ graph_items x ++ is = i :: l) by (cbn [flat_map]; rewrite <- app_assoc; exact Ei).
    rewrite El in A, GA. inversion GA as [|? ? Gi Gl]; subst. destruct (step _ _ _ _ Gi Gl A) as (y1 & E & _ & _ & A1 & _).
    assert (L1 : line_loop compiles (4 + k) (length (c :: cs)) None y =
      try '(cs', y2) <- read_cells compiles (length (c :: cs)) (unread y1); line_loop compiles (3 + k) (length (c :: cs)) (Some (mkLine L_CELL cs' 0 false)) y2).
    { cbn [Nat.add]. remember (length (c :: cs)) as m eqn:Em. rewrite line_loop_S, E. cbn [ibind]. destruct Ti as [-> | ->]; reflexivity. }
    rewrite L1, <- El in *. clear L1.
    destruct (read_cells_items compiles (c :: cs) (K [SP] (if right_axis x then "RAXIS" else "LAXIS"))
      (K [SP] (if graph x =? 2 then "GRBAR" else "GRLINE") :: is) tail (unread y1) Hs) as (y2 & E2 & A2).
    { pose proof (graph_good x) as Gg. inversion Gg; assumption. }
    { pose proof (graph_good x) as Gg. inversion Gg as [|? ? _ Gg2]; subst. inversion Gg2; subst. constructor; assumption. }
    { intros d. destruct (right_axis x); reflexivity. }
    { exact A1. }
    rewrite E2. cbn [ibind]. pose proof (graph_good x) as Gg. unfold graph_items in Gg. inversion Gg as [|? ? Gg1 Gg2]; subst. inversion Gg2 as [|? ? Gg3 _]; subst.
    pose proof (line_key _ _ (S (S k)) (length (c :: cs)) (mkLine L_CELL (map kept_cell (c :: cs)) 0 false) _ tail y2 Gg1 ltac:(constructor; [exact Gg3|exact GO]) A2 ltac:(destruct (right_axis x); reflexivity)) as X.
    assert (X' : exists y3, line_loop compiles (S (S (S k))) (length (c :: cs)) (Some (mkLine L_CELL (map kept_cell (c :: cs)) 0 false)) y2 =
      line_loop compiles (S (S k)) (length (c :: cs)) (Some (mkLine L_CELL (map kept_cell (c :: cs)) 0 (right_axis x))) y3 /\
      at_items (K [SP] (if graph x =? 2 then "GRBAR" else "GRLINE") :: is) tail y3) by (destruct (right_axis x); exact X). clear X.
    destruct X' as (y3 & E3 & A3). cbn [Nat.add]. rewrite E3.
    pose proof (line_key _ _ (S k) (length (c :: cs)) (mkLine L_CELL (map kept_cell (c :: cs)) 0 (right_axis x)) _ tail y3 Gg3 GO A3 ltac:(destruct (graph x =? 2); reflexivity)) as X.
    assert (X' : exists y4, line_loop compiles (S (S k)) (length (c :: cs)) (Some (mkLine L_CELL (map kept_cell (c :: cs)) 0 (right_axis x))) y3 =
      line_loop compiles (S k) (length (c :: cs)) (Some (mkLine L_CELL (map kept_cell (c :: cs)) (if graph x =? 2 then 2 else 0) (right_axis x))) y4 /\
      at_items is tail y4) by (destruct (graph x =? 2); exact X). clear X.
    destruct X' as (y4 & E4 & A4). rewrite E4. apply line_stop; assumption.
  - destruct H as (c & Cc & Hs & Hl). rewrite Cc in *. cbn [hd app map] in *. inversion GL as [|? ? GT GC]; subst.
    destruct (step _ _ _ _ GT ltac:(apply Forall_app; split; [exact GC|exact GO]) A) as (y1 & E & _ & A1 & _).
    destruct O as (j & is' & -> & St & Gs). destruct St as (En & Gr & Gj).
    destruct (read_cell_items compiles true c j is' tail y1 Hs ltac:(intros _; exact Hl) Gj Gs En A1) as (y2 & E2 & A2).
    cbn [Nat.add]. rewrite line_loop_S, E. cbn [ibind itok K].
    change (attribute_of (L_KEY (S2L "TITLE")) empty_cell) with (@None cell). change (graph_of (L_KEY (S2L "TITLE")) (empty_line L_CELL)) with (@None tline).
    change (simple_line (L_KEY (S2L "TITLE"))) with (@None lkind). change (is_key (L_KEY (S2L "TITLE")) "TITLE") with true. cbv iota. rewrite E2. cbn [ibind].
    apply (line_stop (S (S k))); [exists j, is'; split; [reflexivity|split; [split; [exact En|split; [exact Gr|exact Gj]]|exact Gs]]|exact A2].
Qed.

(** * The entries of a table *)
Definition reads (chunk : list item) (t t' : table) : Prop := forall k is tail y, opens is -> at_items (chunk ++ is) tail y ->
  exists y1, table_loop compiles (S k) t y = table_loop compiles k t' y1 /\ at_items is tail y1.
Lemma table_loop_S k t y : table_loop compiles (S k) t y =
    try '(l, y1) <- lex TABLE y;
    match l with
    | L_KEY w =>
      if str_eqb w (S2L "}") then Done (t, y1)
      else
        match assoc w LANGS with
        | Some g => table_loop compiles k (set_lang g t) y1
        | None =>
          if str_eqb w (S2L "DIV") then
            try '(cs, y2) <- read_cells compiles (Z.to_nat (columns t)) y1;
            table_loop compiles k (set_div (cs ++ skipn (length cs) (divider t)) t) y2
          else
            match assoc w HEADERS with
            | Some f => try '(v, y2) <- tread_long y1; table_loop compiles k (set_header f (to_char v) t) y2
            | None =>
              match assoc w LIMITS with
              | Some f => try '(v, y2) <- read_real TABLE y1; table_loop compiles k (set_limit f (to_float v) t) y2
              | None =>
                if str_eqb w (S2L "ALIGN") then try '(v, y2) <- read_align y1; table_loop compiles k (set_header 4 v t) y2
                else if str_eqb w (S2L "-") then
                  try '(x, y2) <- line_loop compiles (fuel_of y1) (Z.to_nat (columns t)) None y1;
                  table_loop compiles k (add_line x t) y2
                else table_loop compiles k t y1
              end
            end
        end
    | _ => table_loop compiles k t y1
    end.
Proof. reflexivity. Qed.

Definition lang_item (g : tlang) : item := K [] (match g with ENGLISH => "ENGLISH" | DUTCH => "DUTCH" | FRENCH => "FRENCH" end).
Lemma lang_good g : good (lang_item g).
Proof. destruct g; (apply good_K; [gp|is_kword]). Qed.
Lemma reads_lang g t : reads [lang_item g] t (set_lang g t).
Proof.
  intros k is tail y O A. cbn [app] in A. destruct (step _ _ _ _ (lang_good g) (opens_good _ O) A) as (y1 & E & _ & A1 & _). exists y1. split; [|exact A1].
  rewrite table_loop_S, E. destruct g; reflexivity.
Qed.
Definition header_name (f : nat) : string := match f with O => "BOX" | 1 => "AXIS" | 2 => "XGRID" | _ => "YGRID" end%nat%string.
Lemma reads_header p f v t : gap p -> (f <= 3)%nat -> char_value v -> reads [K p (header_name f); N SP v] t (set_header f v t).
Proof.
  intros P F V k is tail y O A. cbn [app] in A.
  assert (GK : good (K p (header_name f))) by (do 4 (destruct f as [|f]; [apply good_K; [exact P|is_kword]|]); lia).
  assert (GN : good (N SP v)) by (apply good_N; [gp|unfold char_value in V; lia]).
  destruct (step _ _ _ _ GK ltac:(constructor; [exact GN|apply opens_good, O]) A) as (y1 & E & _ & A1 & _).
  destruct (step _ _ _ _ GN (opens_good _ O) A1) as (y2 & E2 & T2 & A2 & _). exists y2. split; [|exact A2].
  rewrite table_loop_S, E. cbn [ibind itok K].
  assert (TL : tread_long y1 = Done (v, y2)).
  { unfold tread_long. cbn [tlong_loop]. rewrite E2. cbn [ibind itok N]. rewrite T2. cbn [iw N]. do 2 f_equal. apply to_string_spec. unfold char_value in V; lia. }
  assert (TC : to_char v = v) by (unfold to_char, char_value in *; rewrite Z.mod_small; lia).
  assert (X : (try '(v0, y3) <- tread_long y1; table_loop compiles k (set_header f (to_char v0) t) y3) = table_loop compiles k (set_header f v t) y2) by (rewrite TL; cbn [ibind]; rewrite TC; reflexivity).
  do 4 (destruct f as [|f]; [exact X|]). lia.
Qed.
Definition align_item (a : Z) : item := K [] (if a =? 0 then "LEFT" else if a =? 1 then "CENTER" else "RIGHT").
Lemma align_item_good a : good (align_item a).
Proof. unfold align_item. destruct (a =? 0); [|destruct (a =? 1)]; (apply good_K; [gp|is_kword]). Qed.
Lemma reads_align a t : 0 <= a <= 2 -> reads [K [LF] "ALIGN"; align_item a] t (set_header 4 a t).
Proof.
  intros Ha k is tail y O A. cbn [app] in A.
  assert (GK : good (K [LF] "ALIGN")) by (apply good_K; [gp|is_kword]).
  destruct (step _ _ _ _ GK ltac:(constructor; [apply align_item_good|apply opens_good, O]) A) as (y1 & E & _ & A1 & _).
  destruct (step _ _ _ _ (align_item_good a) (opens_good _ O) A1) as (y2 & E2 & T2 & A2 & _). exists y2. split; [|exact A2].
  rewrite table_loop_S, E. cbn [ibind itok K].
  assert (RA : read_align y1 = Done (a, y2)).
  { unfold read_align. rewrite E2. cbn [ibind]. assert (D : a = 0 \/ a = 1 \/ a = 2) by lia. destruct D as [-> | [-> | ->]]; reflexivity. }
  transitivity (try '(v, y3) <- read_align y1; table_loop compiles k (set_header 4 v t) y3); [reflexivity|]. rewrite RA. reflexivity.
Qed.
Definition limit_name (f : nat) : string := match f with O => "YMIN" | 1 => "YMAX" | 2 => "ZMIN" | _ => "ZMAX" end%nat%string.
Definition limit_items (f : nat) (v : dbl) : list item :=
  K [LF] (limit_name f) :: (if negative v then [Sg [] 45 []] else []) ++ [Rl (round_div (numer v * 10 ^ 6) (denom v))].
Lemma denom_pos v : 0 < denom v.
Proof. unfold denom. destruct v; try lia. destruct (0 <=? e) eqn:E; [lia|]. apply Z.pow_pos_nonneg; lia. Qed.
Lemma numer_nonneg v : 0 <= numer v.
Proof. unfold numer. destruct v; try lia. destruct (0 <=? e) eqn:E; [|lia]. apply Z.mul_nonneg_nonneg; [lia|]. apply Z.pow_nonneg. lia. Qed.
Lemma limit_range v : numer v < denom v * 10 ^ 38 -> 0 <= round_div (numer v * 10 ^ 6) (denom v) <= 10 ^ 44.
Proof.
  intros H. pose proof (denom_pos v). pose proof (numer_nonneg v). destruct (round_div_bound (numer v * 10 ^ 6) (denom v)) as (B & P); [assumption|lia|].
  split; [exact P|]. change (10 ^ 44) with (10 ^ 38 * 10 ^ 6). set (r := round_div _ _) in *.
  destruct (Z.le_gt_cases r (10 ^ 38 * 10 ^ 6)) as [L|L]; [exact L|exfalso]. change (10 ^ 38 * 10 ^ 6) with (10 ^ 44) in L. change (10 ^ 6) with 1000000 in *. change (10 ^ 38) with 100000000000000000000000000000000000000 in *. change (10 ^ 44) with 100000000000000000000000000000000000000000000 in *. nia.
Qed.
Lemma limit_good f v : (f <= 3)%nat -> numer v < denom v * 10 ^ 38 -> Forall good (limit_items f v).
Proof.
  intros F H. unfold limit_items. constructor; [do 4 (destruct f as [|f]; [apply good_K; [gp|is_kword]|]); lia|].
  apply Forall_app. split; [destruct (negative v); [constructor; [apply good_Sg; [gp|gp|cbn; auto]|constructor]|constructor]|].
  constructor; [apply good_Rl, limit_range, H|constructor].
Qed.
Lemma reads_limit f v t : (f <= 3)%nat -> numer v < denom v * 10 ^ 38 -> reads (limit_items f v) t (set_limit f (reread_limit v) t).
Proof.
  intros F H k is tail y O A. pose proof (limit_good f v F H) as G. unfold limit_items in *. cbn [app] in A. inversion G as [|? ? GK G2]; subst. apply Forall_app in G2 as (G3 & G4).
  rewrite <- app_assoc in A. inversion G4 as [|? ? GR _]; subst. set (r := round_div _ _) in *.
  destruct (nt6_ok r ltac:(apply limit_range; exact H)) as (OK & M & X & _).
  assert (SC : scan (text_of (chr 69) (nt6 r)) = d_decimal r (-6)) by (rewrite scan_nt by (auto || exact OK); rewrite M, X; reflexivity).
  destruct (step _ _ _ _ GK ltac:(apply Forall_app; split; [exact G3|constructor; [exact GR|apply opens_good, O]]) A) as (y1 & E & _ & A1 & _).
  assert (RR : exists y2, read_real TABLE y1 = Done (if negative v then d_mul (d_ofZ (-1)) (d_decimal r (-6)) else d_decimal r (-6), y2) /\ at_items is tail y2).
  { unfold read_real. destruct (negative v); cbn [app] in A1.
    - inversion G3 as [|? ? GS _]; subst. destruct (step _ _ _ _ GS ltac:(constructor; [exact GR|apply opens_good, O]) A1) as (y2 & E2 & T2 & A2 & _).
      destruct (step _ _ _ _ GR (opens_good _ O) A2) as (y3 & E3 & T3 & A3 & _). exists y3. split; [|exact A3].
      cbn [real_loop]. rewrite E2. cbn [ibind itok Sg]. rewrite T2. cbn [iw Sg]. change (str_eqb [chr 45] (S2L "-")) with true. change (code (chr 45) =? 45) with true. cbv iota.
      rewrite E3. cbn [ibind itok Rl]. rewrite T3. cbn [iw Rl]. rewrite SC. reflexivity.
    - destruct (step _ _ _ _ GR (opens_good _ O) A1) as (y3 & E3 & T3 & A3 & _). exists y3. split; [|exact A3].
      cbn [real_loop]. rewrite E3. cbn [ibind itok Rl]. rewrite T3. cbn [iw Rl]. rewrite SC. reflexivity. }
  destruct RR as (y2 & RR & A2). exists y2. split; [|exact A2]. rewrite table_loop_S, E. cbn [ibind itok K].
  assert (Y : (try '(v0, y3) <- read_real TABLE y1; table_loop compiles k (set_limit f (to_float v0) t) y3) = table_loop compiles k (set_limit f (reread_limit v) t) y2) by (rewrite RR; reflexivity).
  do 4 (destruct f as [|f]; [exact Y|]). lia.
Qed.
Lemma reads_div cs t : Forall (savable_cell compiles) cs -> Z.of_nat (length cs) = columns t -> length (divider t) = length cs ->
  reads (K [LF] "DIV" :: flat_map cell_items cs) t (set_div (map kept_cell cs) t).
Proof.
  intros H L Ld k is tail y O A. cbn [app] in A. assert (GK : good (K [LF] "DIV")) by (apply good_K; [gp|is_kword]).
  destruct (step _ _ _ _ GK ltac:(apply Forall_app; split; [apply (cells_good compiles), H|apply opens_good, O]) A) as (y1 & E & _ & A1 & _).
  destruct O as (j & is' & -> & (En & Gr & Gj) & Gs).
  destruct (read_cells_items compiles cs j is' tail y1 H Gj Gs En A1) as (y2 & E2 & A2). exists y2. split; [|exact A2].
  rewrite table_loop_S, E. cbn [ibind itok K].
  transitivity (try '(cs0, y3) <- read_cells compiles (Z.to_nat (columns t)) y1; table_loop compiles k (set_div (cs0 ++ skipn (length cs0) (divider t)) t) y3); [reflexivity|].
  replace (Z.to_nat (columns t)) with (length cs) by lia. rewrite E2. cbn [ibind]. rewrite map_length, <- Ld, skipn_all, app_nil_r. reflexivity.
Qed.
Lemma reads_line x t : 0 < columns t -> savable_line compiles (columns t) x -> reads (Sg [LF] 45 [SP] :: line_items x) t (add_line (Some (kept_line x)) t).
Proof.
  intros C H k is tail y O A. cbn [app] in A. assert (GS : good (Sg [LF] 45 [SP])) by (apply good_Sg; [gp|gp|cbn; auto]).
  destruct (step _ _ _ _ GS ltac:(apply Forall_app; split; [apply (line_good (columns t)), H|apply opens_good, O]) A) as (y1 & E & _ & A1 & _ & L).
  assert (F : exists m, fuel_of y1 = (4 + m)%nat).
  { unfold fuel_of. rewrite app_length in L. destruct O as (j & is' & -> & _). cbn [length] in L. exists (2 * length (rest y1) - 2)%nat. lia. }
  destruct F as (m & F). destruct (read_line_items (columns t) x is tail y1 m C H O A1) as (y2 & E2 & A2). exists y2. split; [|exact A2].
  rewrite table_loop_S, E. cbn [ibind itok Sg].
  transitivity (try '(x0, y3) <- line_loop compiles (fuel_of y1) (Z.to_nat (columns t)) None y1; table_loop compiles k (add_line x0 t) y3); [reflexivity|].
  rewrite F, E2. reflexivity.
Qed.
End Reading.
