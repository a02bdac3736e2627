(** Lemmas on K_wrap: what the cut in lines keeps. *)
From Coq Require Import ZArith Ascii String List Bool Sorted Lia Floats.SpecFloat.
From Verif Require Import M_Base M_Time M_Names M_Lex M_Compile M_Bytes M_Exec M_Double M_Decimal M_Kdb M_Ascii
  S_Names S_Ascii L_Time L_Names L_Kdb L_Ascii.
Import ListNotations.
Open Scope Z_scope.

Lemma has_lf_iff t : existsb (fun c => code c =? 10) t = true <-> In (chr 10) t.
Proof.
  rewrite existsb_exists. split.
  - intros (c & Hc & E). apply Z.eqb_eq in E. rewrite <- (code_eq c 10); [exact Hc|lia|exact E].
  - intros H. exists (chr 10). split; [exact H|reflexivity].
Qed.
Lemma wrap_lf t lg : In (chr 10) t -> wrap t lg = t.
Proof. intros H. unfold wrap. apply has_lf_iff in H. rewrite H. reflexivity. Qed.
Lemma no_lf t : ~ In (chr 10) t -> forall c, In c t -> (code c =? 10) = false.
Proof. intros H c Hc. apply Z.eqb_neq. intros E. apply H. rewrite <- (code_eq c 10); [exact Hc|lia|exact E]. Qed.
Lemma wrap_no_lf t lg : ~ In (chr 10) t -> wrap t lg = join (text_lines (S (length t)) lg t).
Proof.
  intros H. unfold wrap. replace (existsb _ t) with false; [reflexivity|]. symmetry. apply not_true_is_false.
  intros X. apply has_lf_iff in X. exact (H X).
Qed.
Lemma line_length_min s : forall n, ~ In (chr 10) s -> line_length s n = Nat.min n (length s).
Proof.
  induction s as [|c s IH]; intros [|n] H; try reflexivity. cbn [line_length length Nat.min].
  rewrite (no_lf _ H c (or_introl eq_refl)). f_equal. apply IH. intros X. apply H. right. exact X.
Qed.
Lemma skip_spaces_spec s : exists a, s = a ++ skip_spaces s /\ blanks a /\ (forall c u, skip_spaces s = c :: u -> isspace c = false).
Proof.
  induction s as [|c s IH]; [exists []; repeat split; [constructor|discriminate]|]. cbn [skip_spaces].
  destruct (isspace c) eqn:E.
  - destruct IH as (a & E1 & B & N). exists (c :: a). split; [cbn; f_equal; exact E1|]. split; [constructor; assumption|exact N].
  - exists []. split; [reflexivity|]. split; [constructor|]. intros d u H. injection H as <- _. exact E.
Qed.

Lemma wrap_short t : printable t -> short_line t -> wrap t 60 = t.
Proof.
  intros P (L & N & F). rewrite (wrap_no_lf t 60 N). cbn [text_lines].
  assert (E : skip_spaces t = t).
  { destruct t as [|c u]; [reflexivity|]. cbn. specialize (F c u eq_refl). inversion P; subst.
    pose proof (no_lf _ N c (or_introl eq_refl)). replace (isspace c) with false; [reflexivity|]. unfold isspace. lia. }
  rewrite E. destruct t as [|c u]; [reflexivity|]. rewrite (line_length_min _ 60 N), Nat.min_r by exact L.
  replace (Nat.ltb (length (c :: u)) (length (c :: u))) with false by (symmetry; apply Nat.ltb_irrefl).
  cbn [andb]. rewrite firstn_all, skipn_all. reflexivity.
Qed.

(** The lines. *)
Definition cut (lg : nat) (a : str) : nat :=
  let i := line_length a lg in
  let prev := last_sep a lg 0 0 in
  if Nat.ltb i (length a) && Nat.leb lg i && Nat.ltb 0 prev then S prev else i.
Lemma text_lines_S k lg s : text_lines (S k) lg s =
  match skip_spaces s with
  | [] => []
  | a => firstn (cut lg a) a :: match skipn (cut lg a) a with [] => [] | a' => text_lines k lg a' end
  end.
Proof. reflexivity. Qed.
Lemma last_sep_spec s : forall n i prev, ~ In (chr 10) s ->
  (last_sep s n i prev = prev /\ (forall j, (j < n)%nat -> (j < length s)%nat -> is_sep (nth j s nul) = false)) \/
  (exists j, (j < n)%nat /\ (j < length s)%nat /\ last_sep s n i prev = (i + j)%nat /\ is_sep (nth j s nul) = true /\
     (forall k, (j < k)%nat -> (k < n)%nat -> (k < length s)%nat -> is_sep (nth k s nul) = false)).
Proof.
  induction s as [|c s IH]; intros [|n] i prev H; try (left; split; [reflexivity|cbn; intros; lia]).
  cbn [last_sep]. rewrite (no_lf _ H c (or_introl eq_refl)).
  assert (H' : ~ In (chr 10) s) by (intros X; apply H; right; exact X).
  destruct (IH n (S i) (if is_sep c then i else prev) H') as [[E A]|(j & J1 & J2 & E & J3 & J4)].
  - destruct (is_sep c) eqn:Ec.
    + right. exists O. split; [lia|]. split; [cbn; lia|]. split; [rewrite E; lia|]. split; [exact Ec|].
      intros [|k] K1 K2 K3; [lia|]. cbn in *. apply A; lia.
    + left. split; [exact E|]. intros [|j] J1 J2; [exact Ec|]. cbn in *. apply A; lia.
  - right. exists (S j). cbn in *. split; [lia|]. split; [lia|]. split; [lia|]. split; [exact J3|].
    intros [|k] K1 K2 K3; [lia|]. apply J4; lia.
Qed.
(** The cut is at the end, after a separator, or at [lg] characters without separator after the first. *)
Lemma cut_spec lg a : (0 < lg)%nat -> ~ In (chr 10) a -> a <> [] ->
  (0 < cut lg a <= lg)%nat /\ (cut lg a <= length a)%nat /\
  (skipn (cut lg a) a = [] \/
   (exists j, cut lg a = S j /\ is_sep (nth j a nul) = true) \/
   (cut lg a = lg /\ (lg < length a)%nat /\ forall j, (0 < j < lg)%nat -> is_sep (nth j a nul) = false)).
Proof.
  intros L N NE. unfold cut. rewrite (line_length_min a lg N).
  assert (La : (0 < length a)%nat) by (destruct a; [contradiction|cbn; lia]).
  destruct (last_sep_spec a lg 0 0 N) as [[E A]|(j & J1 & J2 & E & J3 & J4)]; rewrite E.
  - replace (Nat.ltb 0 0) with false by reflexivity. rewrite andb_false_r.
    split; [lia|]. split; [lia|]. destruct (Nat.leb (length a) lg) eqn:C.
    + apply Nat.leb_le in C. left. rewrite Nat.min_r by exact C. apply skipn_all.
    + apply Nat.leb_gt in C. right. right. rewrite Nat.min_l by lia. split; [reflexivity|]. split; [exact C|].
      intros j Hj. apply A; lia.
  - cbn [Nat.add]. destruct (Nat.leb (length a) lg) eqn:C.
    + apply Nat.leb_le in C. rewrite Nat.min_r by exact C. rewrite Nat.ltb_irrefl. cbn [andb].
      split; [lia|]. split; [lia|]. left. apply skipn_all.
    + apply Nat.leb_gt in C. rewrite Nat.min_l by lia. replace (Nat.ltb lg (length a)) with true by (symmetry; apply Nat.ltb_lt; exact C).
      rewrite Nat.leb_refl. cbn [andb]. destruct (Nat.ltb 0 j) eqn:D.
      * split; [lia|]. split; [lia|]. right. left. exists j. split; [reflexivity|exact J3].
      * apply Nat.ltb_ge in D. split; [lia|]. split; [lia|]. right. right. split; [reflexivity|]. split; [exact C|].
        intros k Hk. apply J4; lia.
Qed.

Lemma nonblank_app a b : nonblank (a ++ b) = nonblank a ++ nonblank b.
Proof. apply filter_app. Qed.
Lemma nonblank_blanks a : blanks a -> nonblank a = [].
Proof. induction a as [|c a IH]; intros H; [reflexivity|]. inversion H as [|x l Hc Ha]; subst. cbn. rewrite Hc. apply IH; exact Ha. Qed.
Lemma join_cons x l : nonblank (join (x :: l)) = nonblank x ++ nonblank (join l).
Proof.
  destruct l as [|y l]; [cbn [join]; symmetry; apply app_nil_r|].
  change (join (x :: y :: l)) with (x ++ LF :: join (y :: l)). rewrite nonblank_app. reflexivity.
Qed.
Lemma no_lf_app_r a b : ~ In (chr 10) (a ++ b) -> ~ In (chr 10) b.
Proof. intros H X. apply H. apply in_or_app. right. exact X. Qed.
Lemma no_lf_app_l a b : ~ In (chr 10) (a ++ b) -> ~ In (chr 10) a.
Proof. intros H X. apply H. apply in_or_app. left. exact X. Qed.

(** What holds of the lines. *)
Lemma text_lines_ind (P : str -> list str -> Prop) lg : (0 < lg)%nat ->
  (forall s, skip_spaces s = [] -> P s []) ->
  (forall s a l, skip_spaces s = a -> a <> [] -> ~ In (chr 10) a ->
    (skipn (cut lg a) a = [] -> l = []) -> (skipn (cut lg a) a <> [] -> P (skipn (cut lg a) a) l) -> P s (firstn (cut lg a) a :: l)) ->
  forall k s, ~ In (chr 10) s -> (length s < k)%nat -> P s (text_lines k lg s).
Proof.
  intros L P0 P1. induction k as [|k IH]; intros s N K; [lia|]. rewrite text_lines_S.
  destruct (skip_spaces_spec s) as (b & E & B & F).
  destruct (skip_spaces s) as [|c u] eqn:Es; [apply P0; exact Es|].
  assert (Na : ~ In (chr 10) (c :: u)) by (rewrite E in N; exact (no_lf_app_r _ _ N)).
  destruct (cut_spec lg (c :: u) L Na) as (C1 & C2 & _); [discriminate|].
  apply (P1 s (c :: u)); [exact Es|discriminate|exact Na| |].
  - intros X. rewrite X. reflexivity.
  - intros X. destruct (skipn (cut lg (c :: u)) (c :: u)) as [|d v] eqn:Sk; [contradiction|].
    apply IH.
    + rewrite <- Sk. rewrite <- (firstn_skipn (cut lg (c :: u)) (c :: u)) in Na. exact (no_lf_app_r _ _ Na).
    + rewrite <- Sk, skipn_length. assert (length s = (length b + length (c :: u))%nat) by (rewrite E at 1; apply app_length). lia.
Qed.
Lemma wrap_nonblank t lg : (0 < lg)%nat -> nonblank (wrap t lg) = nonblank t.
Proof.
  intros L. destruct (in_dec ascii_dec (chr 10) t) as [H|H]; [rewrite (wrap_lf t lg H); reflexivity|].
  rewrite (wrap_no_lf t lg H).
  apply (text_lines_ind (fun s l => nonblank (join l) = nonblank s) lg L); [| |exact H|lia].
  - intros s E. destruct (skip_spaces_spec s) as (b & Eb & B & _). rewrite E, app_nil_r in Eb. rewrite Eb, (nonblank_blanks b B). reflexivity.
  - intros s a l E NE N Nil R. rewrite join_cons. destruct (skip_spaces_spec s) as (b & Eb & B & _).
    rewrite Eb, nonblank_app, (nonblank_blanks b B), E. cbn [app].
    rewrite <- (firstn_skipn (cut lg a) a) at 3. rewrite nonblank_app. f_equal.
    destruct (skipn (cut lg a) a) as [|d v] eqn:Sk; [rewrite (Nil eq_refl); reflexivity|]. apply R. discriminate.
Qed.

(** runs *)
Lemma runs_cons p x : forall cur r c, forallb p x = true -> p c = false -> (cur <> [] \/ x <> []) ->
  runs_from p cur (x ++ c :: r) = (rev cur ++ x) :: runs p r.
Proof.
  induction x as [|d x IH]; intros cur r c F C NE.
  - cbn [app runs_from]. rewrite C, app_nil_r. destruct cur; [destruct NE; contradiction|reflexivity].
  - cbn in F. apply andb_true_iff in F as [F1 F2]. cbn [app runs_from]. rewrite F1.
    rewrite (IH (d :: cur) r c F2 C); [|left; discriminate]. cbn [rev]. rewrite <- app_assoc. reflexivity.
Qed.
Lemma runs_end p x : forall cur, forallb p x = true -> (cur <> [] \/ x <> []) -> runs_from p cur x = [rev cur ++ x].
Proof.
  induction x as [|d x IH]; intros cur F NE.
  - cbn. rewrite app_nil_r. destruct cur; [destruct NE; contradiction|reflexivity].
  - cbn in F. apply andb_true_iff in F as [F1 F2]. cbn [runs_from]. rewrite F1.
    rewrite (IH (d :: cur) F2); [|left; discriminate]. cbn [rev]. rewrite <- app_assoc. reflexivity.
Qed.
Lemma wrap_lines t lg : (0 < lg)%nat -> ~ In (chr 10) t -> Forall (fun l => (length l <= lg)%nat) (lines (wrap t lg)).
Proof.
  intros L H. rewrite (wrap_no_lf t lg H).
  assert (X : lines (join (text_lines (S (length t)) lg t)) = text_lines (S (length t)) lg t /\
    Forall (fun l => (length l <= lg)%nat) (text_lines (S (length t)) lg t)).
  { apply (text_lines_ind (fun s l => lines (join l) = l /\ Forall (fun x => (length x <= lg)%nat) l) lg L); [| |exact H|lia].
    - intros s _. split; [reflexivity|constructor].
    - intros s a l E NE N Nil R. destruct (cut_spec lg a L N NE) as (C1 & C2 & _).
      assert (Fi : forallb (fun c => negb (code c =? 10)) (firstn (cut lg a) a) = true).
      { apply forallb_forall. intros c Hc. rewrite (no_lf a N c); [reflexivity|]. rewrite <- (firstn_skipn (cut lg a) a).
        apply in_or_app. left. exact Hc. }
      assert (Fn : firstn (cut lg a) a <> []) by (destruct a as [|d a]; [contradiction|]; destruct (cut lg (d :: a)); [lia|discriminate]).
      assert (Le : (length (firstn (cut lg a) a) <= lg)%nat) by (rewrite firstn_length; lia).
      destruct (skipn (cut lg a) a) as [|d v] eqn:Sk.
      + rewrite (Nil eq_refl). split; [|constructor; [exact Le|constructor]]. unfold lines, runs. cbn [join].
        rewrite (runs_end _ _ [] Fi (or_intror Fn)). reflexivity.
      + destruct R as [R1 R2]; [discriminate|]. split; [|constructor; assumption].
        destruct l as [|y l].
        * unfold lines, runs. cbn [join]. rewrite (runs_end _ _ [] Fi (or_intror Fn)). reflexivity.
        * change (join (firstn (cut lg a) a :: y :: l)) with (firstn (cut lg a) a ++ LF :: join (y :: l)).
          unfold lines, runs. rewrite (runs_cons _ _ [] _ LF Fi eq_refl (or_intror Fn)). cbn [rev app]. f_equal. exact R1. }
  destruct X as [X1 X2]. rewrite X1. exact X2.
Qed.

(** elements *)
Lemma runs_from_app p x : forall cur y, (forall c u, y = c :: u -> True) ->
  (x <> [] -> p (last x nul) = false) -> x <> [] -> runs_from p cur (x ++ y) = runs_from p cur x ++ runs p y.
Proof.
  induction x as [|d x IH]; intros cur y _ Hl NE; [contradiction|].
  specialize (Hl NE). destruct x as [|e x].
  - cbn in Hl. cbn [app runs_from]. rewrite Hl. destruct cur; reflexivity.
  - change (last (d :: e :: x) nul) with (last (e :: x) nul) in Hl.
    assert (NE' : e :: x <> []) by discriminate.
    specialize (fun cur => IH cur y (fun _ _ _ => I) (fun _ => Hl) NE').
    change ((d :: e :: x) ++ y) with (d :: ((e :: x) ++ y)). cbn [runs_from].
    destruct (p d); [apply IH|]. destruct cur; rewrite IH; reflexivity.
Qed.
Lemma runs_blanks p a s : Forall (fun c => p c = false) a -> runs p (a ++ s) = runs p s.
Proof. induction a as [|c a IH]; intros H; [reflexivity|]. inversion H as [|x l Hc Ha]; subst. unfold runs in *. cbn [app runs_from]. rewrite Hc. apply IH. exact Ha. Qed.
Lemma blank_not_element c : isspace c = true -> in_element c = false.
Proof. intros H. unfold in_element. rewrite H. reflexivity. Qed.
Lemma elements_lf x : forall cur, runs_from in_element cur (x ++ [LF]) = runs_from in_element cur x.
Proof.
  induction x as [|c x IH]; intros cur.
  - cbn. destruct cur; reflexivity.
  - cbn [app runs_from]. destruct (in_element c); [apply IH|]. destruct cur; [apply IH|f_equal; apply IH].
Qed.
Lemma elements_join x l : elements (join (x :: l)) = elements x ++ elements (join l).
Proof.
  destruct l as [|y l]; [cbn [join]; symmetry; apply app_nil_r|].
  change (join (x :: y :: l)) with (x ++ LF :: join (y :: l)).
  replace (x ++ LF :: join (y :: l)) with ((x ++ [LF]) ++ join (y :: l)) by (rewrite <- app_assoc; reflexivity).
  unfold elements, runs. rewrite (runs_from_app in_element (x ++ [LF])); [|auto|intros _; rewrite last_last; reflexivity|destruct x; discriminate].
  f_equal. apply elements_lf.
Qed.
Lemma long_run p m : forall cur r, forallb p m = true -> m <> [] -> exists e, In e (runs_from p cur (m ++ r)) /\ (length cur + length m <= length e)%nat.
Proof.
  assert (G : forall r cur, cur <> [] -> exists e, In e (runs_from p cur r) /\ (length cur <= length e)%nat).
  { induction r as [|c r IH]; intros cur NE.
    - exists (rev cur). cbn. destruct cur; [contradiction|]. split; [left; reflexivity|rewrite rev_length; lia].
    - cbn [runs_from]. destruct (p c).
      + destruct (IH (c :: cur)) as (e & He & Le); [discriminate|]. exists e. split; [exact He|cbn in Le; lia].
      + destruct cur as [|d cur]; [contradiction|]. exists (rev (d :: cur)). split; [left; reflexivity|rewrite rev_length; lia]. }
  induction m as [|c m IH]; intros cur r F NE; [contradiction|]. cbn in F. apply andb_true_iff in F as [F1 F2].
  cbn [app runs_from]. rewrite F1. destruct m as [|d m].
  - cbn [app]. destruct (G r (c :: cur)) as (e & He & Le); [discriminate|]. exists e. split; [exact He|cbn in *; lia].
  - destruct (IH (c :: cur) r F2) as (e & He & Le); [discriminate|]. exists e. split; [exact He|cbn in *; lia].
Qed.
(** The separators of K_wrap that do not separate elements. *)
Lemma sep_not_element c : ~ In (code c) [42; 43; 45; 47; 41] -> is_sep c = true -> in_element c = false.
Proof.
  unfold is_sep, seps, in_element, ascii_eqb, isspace. cbn. intros H E. lia.
Qed.
Lemma not_sep_element c : (32 <= code c \/ code c = 10) -> (code c =? 10) = false -> is_sep c = false -> in_element c = true.
Proof. unfold is_sep, seps, in_element, ascii_eqb, isspace. cbn. intros H E F. lia. Qed.

Lemma nth_last_firstn (a : str) j : (j < length a)%nat -> last (firstn (S j) a) nul = nth j a nul.
Proof.
  revert j. induction a as [|c a IH]; intros j H; [cbn in H; lia|]. destruct j as [|j]; [reflexivity|].
  cbn [length] in H. specialize (IH j ltac:(lia)). destruct a as [|d a]; [cbn in H; lia|].
  change (firstn (S (S j)) (c :: d :: a)) with (c :: firstn (S j) (d :: a)).
  change (nth (S j) (c :: d :: a) nul) with (nth j (d :: a) nul). rewrite <- IH. reflexivity.
Qed.
Lemma forallb_nth (p : ascii -> bool) (m : str) : (forall j, (j < length m)%nat -> p (nth j m nul) = true) -> forallb p m = true.
Proof.
  induction m as [|c m IH]; intros H; [reflexivity|]. cbn [forallb]. change c with (nth 0 (c :: m) nul) at 1. rewrite (H O) by (cbn; lia). apply IH. intros j Hj. apply (H (S j)). cbn. lia.
Qed.
Lemma nth_firstn (l : str) : forall n j, (j < n)%nat -> nth j (firstn n l) nul = nth j l nul.
Proof.
  induction l as [|c l IH]; intros [|n] [|j] H; try reflexivity; try lia. cbn. apply IH. lia.
Qed.
Lemma wrap_elements t : printable t -> in_names t -> Forall (fun e => (length e <= 58)%nat) (elements t) ->
  elements (wrap t 60) = elements t.
Proof.
  intros P Nm Le. destruct (in_dec ascii_dec (chr 10) t) as [H|H]; [rewrite (wrap_lf t 60 H); reflexivity|].
  rewrite (wrap_no_lf t 60 H).
  assert (X : (printable t /\ in_names t /\ Forall (fun e => (length e <= 58)%nat) (elements t)) ->
     elements (join (text_lines (S (length t)) 60 t)) = elements t); [|apply X; auto].
  apply (text_lines_ind (fun s l => (printable s /\ in_names s /\ Forall (fun e => (length e <= 58)%nat) (elements s)) ->
     elements (join l) = elements s) 60%nat); [lia| | |exact H|lia].
  - intros s E _. destruct (skip_spaces_spec s) as (b & Eb & B & _). rewrite E, app_nil_r in Eb. rewrite Eb.
    rewrite <- (app_nil_r b). unfold elements. rewrite runs_blanks; [reflexivity|]. eapply Forall_impl; [|exact B]. intros c. apply blank_not_element.
  - intros s a l E NE N Nil R (Ps & Ns & Ls). rewrite elements_join.
    destruct (skip_spaces_spec s) as (b & Eb & B & _). rewrite E in Eb.
    assert (Es : elements s = elements a).
    { rewrite Eb. unfold elements. apply runs_blanks. eapply Forall_impl; [|exact B]. intros c. apply blank_not_element. }
    rewrite Es in *. rewrite Eb in Ps, Ns. apply Forall_app in Ps as [_ Pa]. apply Forall_app in Ns as [_ Na].
    destruct (cut_spec 60 a ltac:(lia) N NE) as (C1 & C2 & C3).
    set (k := cut 60 a) in *.
    assert (Sp : firstn k a ++ skipn k a = a) by apply firstn_skipn.
    assert (El : skipn k a = [] \/ elements a = elements (firstn k a) ++ elements (skipn k a)).
    { destruct C3 as [C3|[(j & J1 & J2)|(K1 & K2 & K3)]]; [left; exact C3| |].
      - right. rewrite <- Sp at 1. unfold elements, runs. apply runs_from_app; [auto| |].
        + intros _. rewrite J1. rewrite nth_last_firstn by lia. apply sep_not_element; [|exact J2].
          rewrite Forall_forall in Na. apply Na. apply nth_In. lia.
        + destruct a; [contradiction|]. rewrite J1. discriminate.
      - exfalso. destruct a as [|c a]; [contradiction|]. cbn [length] in K2.
        assert (F : forallb in_element (firstn 59 a) = true).
        { apply forallb_nth. intros j Hj. rewrite firstn_length in Hj. rewrite nth_firstn by lia.
          assert (I : In (nth j a nul) (c :: a)) by (right; apply nth_In; lia).
          apply not_sep_element.
          - unfold printable in Pa. rewrite Forall_forall in Pa. apply Pa. exact I.
          - apply (no_lf (c :: a) N). exact I.
          - apply (K3 (S j)). lia. }
        assert (Q : exists e, In e (elements (c :: a)) /\ (59 <= length e)%nat).
        { rewrite <- (firstn_skipn 59 a). unfold elements, runs. cbn [runs_from].
          assert (Lf : length (firstn 59 a) = 59%nat) by (rewrite firstn_length; lia).
          assert (Nf : firstn 59 a <> []) by (intros X; rewrite X in Lf; discriminate).
          destruct (in_element c).
          - destruct (long_run in_element (firstn 59 a) [c] (skipn 59 a) F Nf) as (e & He & Hl). exists e. split; [exact He|lia].
          - destruct (long_run in_element (firstn 59 a) [] (skipn 59 a) F Nf) as (e & He & Hl). exists e. split; [exact He|lia]. }
        destruct Q as (e & He & Hl). rewrite Forall_forall in Ls. specialize (Ls e He). lia. }
    destruct (skipn k a) as [|d v] eqn:Sk.
    + rewrite (Nil eq_refl). rewrite <- Sp at 2. rewrite !app_nil_r. reflexivity.
    + destruct El as [El|El]; [discriminate El|]. rewrite El. f_equal. apply R; [discriminate|].
      rewrite <- Sp in Pa, Na. apply Forall_app in Pa as [_ Pa]. apply Forall_app in Na as [_ Na].
      split; [exact Pa|]. split; [exact Na|]. rewrite El in Ls. apply Forall_app in Ls as [_ Ls]. exact Ls.
Qed.
