(** Lemmas: $foreach and $next. *)
From Coq Require Import ZArith Ascii String List Bool Lia ZifyBool.
From Verif Require Import M_Base M_Names M_Lex M_Kdb M_Grep M_Report S_Report S_Names L_Names L_Kdb L_Time L_Report L_Report2 L_Report3 L_Report4 L_Report5 L_Report6.
Import ListNotations.
Open Scope Z_scope.

(** * Texts *)
Definition sign (z : Z) : bool :=
  negb (((48 <=? z) && (z <=? 57)) || ((65 <=? z) && (z <=? 90)) || ((97 <=? z) && (z <=? 122)) || (z =? 95)).
Lemma word_without L w : word w = true -> forallb sign L = true -> without L w = true.
Proof.
  intros Hw HL. apply word_alnum in Hw. unfold without. rewrite forallb_forall in *. intros c Hc. specialize (Hw c Hc).
  apply negb_true_iff, among_false. intros Hin. specialize (HL _ Hin). unfold sign, isalpha, isupper, islower, isdigit in *. lia.
Qed.
Lemma without_app L a b : without L (a ++ b) = without L a && without L b.
Proof. apply forallb_app. Qed.
Lemma lits_ok g t : without [37; 123; 64; 96] t = true -> forallb (piece_ok g) (lits t) = true.
Proof.
  unfold without, lits. rewrite !forallb_forall. intros H p Hp. apply in_map_iff in Hp as (c & <- & Hc). specialize (H c Hc).
  apply negb_true_iff, among_false in H. cbn in H. cbn [piece_ok].
  replace (among c [37; 123; 64]) with false; [|symmetry; apply among_false; cbn; lia].
  replace (code c =? 96) with false by lia. rewrite andb_false_r. reflexivity.
Qed.
Lemma ref_ok g n : word n = true -> ident n = true -> piece_ok g (Ref n) = true.
Proof.
  intros Hw Hi. cbn [piece_ok]. pose proof (word_without [37; 123; 64] n Hw eq_refl) as Hp. unfold plain. rewrite Hp.
  destruct n as [|c r]; [discriminate|]. cbn [ident nonempty not_digit first_not andb] in *.
  rewrite !andb_true_iff in Hi. destruct Hi as [[Hc _] _].
  replace (isdigit c) with false by (unfold isalpha, isupper, islower, isdigit in *; lia).
  replace (among c [42; 33; 35; 45]) with false; [reflexivity|]. symmetry. apply among_false. cbn.
  unfold isalpha, isupper, islower in *. lia.
Qed.
Lemma word_sharp w a t : word w = true -> str_eqb w (a ++ [SHARP] ++ t) = false.
Proof.
  intros Hw. destruct (str_eqb w (a ++ [SHARP] ++ t)) eqn:H; [|reflexivity]. apply str_eqb_iff in H. subst w.
  apply word_alnum in Hw. rewrite forallb_forall in Hw. specialize (Hw SHARP). rewrite in_app_iff in Hw.
  discriminate Hw. right. left. reflexivity.
Qed.
Lemma list_ok_parts t : list_ok t = true -> printable t = true /\ without [34; 40] t = true /\ Z.of_nat (length t) < 2 ^ 30.
Proof.
  unfold list_ok. rewrite !andb_true_iff. intros [[H1 H2] H3]. split; [exact H1|]. split; [|lia].
  unfold without in *. rewrite forallb_forall in *. intros c Hc. specialize (H2 c Hc).
  apply negb_true_iff, among_false in H2. apply negb_true_iff, among_false. cbn in *. lia.
Qed.
Lemma elements_inked t : printable t = true -> forallb inked (elements t) = true.
Proof.
  intros Hp. unfold elements.
  pose proof (tokens_clean (fun c => among c [59; 44; 32]) t [] eq_refl) as H1.
  pose proof (tokens_all (fun c => 32 <=? code c) (fun c => among c [59; 44; 32]) t [] Hp) as H2.
  rewrite forallb_forall in *. intros w Hw. specialize (H1 w Hw). specialize (H2 w Hw).
  unfold clean in H1. apply andb_true_iff in H1 as [_ H1]. unfold inked. rewrite forallb_forall in *. intros c Hc.
  specialize (H1 c Hc). specialize (H2 c Hc). apply negb_true_iff, among_false in H1. cbn in H1. lia.
Qed.
Lemma joined_inked l : forallb inked l = true -> inked (joined (chr 59) l) = true.
Proof. apply joined_all. reflexivity. Qed.
Lemma unblank_elements t : elements (unblank t) = elements t.
Proof.
  induction t as [|c t IH]; [reflexivity|]. cbn [unblank]. destruct (code c =? 32) eqn:Hc; [|reflexivity].
  rewrite IH. unfold elements. cbn [tokens]. replace (among c [59; 44; 32]) with true; [reflexivity|].
  symmetry. unfold among. cbn [existsb]. lia.
Qed.
Lemma rstrip_split t : exists k, t = rstrip t ++ repeat BLANK k.
Proof.
  destruct (unblank_suffix (rev t)) as [k Hk]. exists k. unfold rstrip.
  rewrite <- (rev_involutive t) at 1. rewrite Hk at 1. rewrite rev_app_distr, rev_blanks. reflexivity.
Qed.
Lemma rstrip_elements t : elements (rstrip t) = elements t.
Proof.
  destruct (rstrip_split t) as [k Hk]. rewrite Hk at 2. generalize (rstrip t). intros u. unfold elements.
  generalize (@nil ascii). induction u as [|c u IH]; intros w; cbn [app tokens].
  - induction k as [|k IHk]; [reflexivity|]. cbn [repeat tokens].
    change (among BLANK [59; 44; 32]) with true. cbv iota.
    assert (Hnil : forall k, tokens (fun c => among c [59; 44; 32]) (repeat BLANK k) [] = []) by (clear; induction k; cbn; auto).
    rewrite Hnil. reflexivity.
  - destruct (among c [59; 44; 32]); [destruct (nonempty w); [f_equal|]; apply IH|apply IH].
Qed.
Lemma shave_elements t : elements (shave t) = elements t.
Proof. rewrite shave_eq, rstrip_elements, unblank_elements. reflexivity. Qed.
Lemma printable_shave t : printable t = true -> printable (shave t) = true.
Proof. intros H. rewrite shave_eq. unfold rstrip. apply printable_rev, printable_unblank, printable_rev, printable_unblank, H. Qed.
Lemma unblank_without L t : without L t = true -> without L (unblank t) = true.
Proof. destruct (unblank_suffix t) as [k Hk]. rewrite Hk at 1. rewrite without_app, andb_true_iff. tauto. Qed.
Lemma without_rev L t : without L t = true -> without L (rev t) = true.
Proof. unfold without. rewrite !forallb_forall. intros H c Hc. apply H, in_rev, Hc. Qed.
Lemma list_ok_shave t : list_ok t = true -> list_ok (shave t) = true.
Proof.
  unfold list_ok. rewrite !andb_true_iff. intros [[H1 H2] H3]. split; [split|].
  - apply printable_shave, H1.
  - rewrite shave_eq. unfold rstrip. apply without_rev, unblank_without, without_rev, unblank_without, H2.
  - pose proof (shave_len t). lia.
Qed.
Lemma shave_idem t : shave (shave t) = shave t.
Proof. rewrite (shave_eq t). rewrite shave_rstrip. rewrite !shave_eq. f_equal.
  induction t as [|c t IH]; [reflexivity|]. cbn [unblank]. destruct (code c =? 32) eqn:H; [exact IH|]. cbn [unblank]. rewrite H. reflexivity.
Qed.

Section Loops.
Context {W : Type} (E : env W).
Notation rep := (rep W).
Notation conf := (conf W).

(** * The lines that the loops run *)
Lemma expand_count m (s : rep) (c : conf) i t : index_ok i = true -> rel s c -> r_vseps s = VSEPS ->
  c_macro c (left_name i) = Some t -> list_ok t = true ->
  f_expand (level E (S (S m))) (S2L "@vcount(%" ++ list_name i ++ S2L "%)") s =
  Done (to_string (Z.of_nat (length (elements t)))) s.
Proof.
  intros Hi Hr Hv Hm Ht. apply list_ok_parts in Ht as (Hp & Hw & _).
  change (f_expand (level E (S (S m)))) with (expand_F E (level E (S m))). rewrite expand_all.
  change (S2L "@vcount(%" ++ list_name i ++ S2L "%)") with (AT :: S2L "vcount" ++ chr 40 :: [] ++ (PERCENT :: left_name i ++ [PERCENT; chr 41])).
  replace (PERCENT :: left_name i ++ [PERCENT; chr 41]) with (wrap PERCENT PERCENT (left_name i) ++ chr 41 :: [])
    by (unfold wrap; cbn [app]; rewrite <- app_assoc; reflexivity).
  assert (Hk : g_macro (reading_of E c) (left_name i) = Some t).
  { cbn [reading_of g_macro]. change (to_key ASIS_CASE (left_name i)) with (key (left_name i)).
    rewrite ?key_ident by (apply left_ident, Hi). exact Hm. }
  rewrite (scan_call E m (S2L "vcount") [] (left_name i) t (to_string (Z.of_nat (length (elements t)))) [] []
    (reading_of E c) s); [reflexivity|reflexivity|apply rel_reads, Hr| | |exact Hk|].
  - rewrite forallb_app, lits_ok by reflexivity. cbn [forallb andb]. rewrite ref_ok; [reflexivity| |].
    + apply left_word, Hi.
    + apply left_ident, Hi.
  - cbn [app]. unfold wrap. change (PERCENT :: left_name i ++ [PERCENT]) with ([PERCENT] ++ left_name i ++ [PERCENT]).
    rewrite !without_app. rewrite (word_without _ (left_name i)); [reflexivity|apply left_word, Hi|reflexivity].
  - apply (fneval_vcount E t s Hv Hw).
Qed.
Lemma expand_v1 m f (s : rep) (c : conf) i n t v : index_ok i = true -> word n = true -> word f = true ->
  reads E s (reading_of E c) ->
  c_macro c (left_name i) = Some t ->
  fneval E (f ++ chr 40 :: S2L "1," ++ t) s = Done (Some v) s ->
  f_expand (level E (S (S m))) (S2L "$define " ++ n ++ S2L " @" ++ f ++ S2L "(1,%" ++ list_name i ++ S2L "%)") s =
  Done (S2L "$define " ++ n ++ BLANK :: v) s.
Proof.
  intros Hi Hn Hf Hr Hm Hev.
  change (f_expand (level E (S (S m)))) with (expand_F E (level E (S m))). rewrite expand_all.
  replace (S2L "$define " ++ n ++ S2L " @" ++ f ++ S2L "(1,%" ++ list_name i ++ S2L "%)") with
    ((S2L "$define " ++ n ++ [BLANK]) ++ (AT :: f ++ chr 40 :: S2L "1," ++ wrap PERCENT PERCENT (left_name i) ++ chr 41 :: [])).
  2:{ rewrite <- !app_assoc. f_equal. f_equal. unfold wrap.
      change (list_name i) with (left_name i). cbn [app]. do 2 f_equal. 
      change (S2L " @" ++ f ++ S2L "(1,%" ++ left_name i ++ S2L "%)") with (BLANK :: AT :: f ++ S2L "(1,%" ++ left_name i ++ S2L "%)").
      f_equal. f_equal. f_equal. change (S2L "(1,%" ++ left_name i ++ S2L "%)") with (chr 40 :: chr 49 :: chr 44 :: PERCENT :: left_name i ++ [PERCENT; chr 41]).
      f_equal. cbn [S2L list_ascii_of_string app]. change (chr 49) with "1"%char. change (chr 44) with ","%char. do 3 f_equal.
      rewrite <- app_assoc. reflexivity. }
  rewrite scan_lits.
  2:{ assert (Hd : without [37; 123; 64; 96] (S2L "$define " ++ n ++ [BLANK]) = true).
      { rewrite !without_app. rewrite (word_without _ n); [reflexivity|exact Hn|reflexivity]. }
      unfold without in Hd. rewrite forallb_forall in *. intros d Hin. specialize (Hd d Hin).
      apply negb_true_iff, among_false in Hd. cbn in Hd. unfold ordinary, special, is. change BACKQ with (chr 96).
      rewrite eqb_code by lia. destruct (r_nopar s); lia. }
  assert (Hk : g_macro (reading_of E c) (left_name i) = Some t).
  { cbn [reading_of g_macro]. change (to_key ASIS_CASE (left_name i)) with (key (left_name i)).
    rewrite ?key_ident by (apply left_ident, Hi). exact Hm. }
  rewrite (scan_call E m f (S2L "1,") (left_name i) t v [] _
    (reading_of E c) s); [|exact Hf|exact Hr| | |exact Hk|exact Hev].
  - rewrite scan_nil. f_equal. cbn [app]. rewrite <- !app_assoc. reflexivity.
  - rewrite forallb_app, lits_ok.
    + cbn [forallb andb]. rewrite ref_ok; [reflexivity| |]; [apply left_word, Hi|apply left_ident, Hi].
    + rewrite without_app. rewrite (word_without _ f); [reflexivity|exact Hf|reflexivity].
  - unfold wrap. change (PERCENT :: left_name i ++ [PERCENT]) with ([PERCENT] ++ left_name i ++ [PERCENT]).
    rewrite !without_app. rewrite (word_without _ (left_name i)); [reflexivity|apply left_word, Hi|reflexivity].
Qed.
Lemma line_shape n x f : word n = true -> word x = true -> word f = true ->
  let line := S2L "$define " ++ n ++ S2L " @" ++ f ++ S2L "(1,%" ++ x ++ S2L "%)" in
  line <> [] /\ without [10] line = true /\ goes_on line = false.
Proof.
  intros Hn Hx Hf line. split; [discriminate|]. split.
  - unfold line. rewrite !without_app. rewrite (word_without _ n), (word_without _ x), (word_without _ f) by (assumption || reflexivity). reflexivity.
  - unfold line, goes_on. rewrite !rev_app_distr. reflexivity.
Qed.

Lemma next_turn m (s : rep) (c : conf) i t e es :
  index_ok i = true -> rel s c -> numbered s -> 1 <= r_depth s -> r_vseps s = VSEPS ->
  c_macro c (left_name i) = Some t -> list_ok t = true -> elements t = e :: es ->
  exists s', next_index E (level E (S (S (S m)))) i s = Done (Z.of_nat (length es)) s' /\
    rel s' (turn i e es c) /\ inside s s'.
Proof.
  intros Hi Hr Hn Hd Hv Hm Ht He. unfold next_index, bind at 1.
  rewrite (expand_count (S m) s c i t Hi Hr Hv Hm Ht).
  pose proof (list_ok_parts t Ht) as (Hp & Hw & Hlen).
  pose proof (tokens_count (fun c => among c [59; 44; 32]) t []) as Hcount. fold (elements t) in Hcount. cbn [length] in Hcount.
  assert (Hb : 0 <= Z.of_nat (length (elements t)) < 2 ^ 31) by (change (2 ^ 31) with (2 ^ 30 + 2 ^ 30); lia).
  pose proof (atoi_dec _ [] Hb I) as Ha. rewrite app_nil_r in Ha. rewrite Ha, He. clear Ha Hb Hcount.
  replace (Z.of_nat (length (e :: es)) =? 0) with false by (cbn [length]; lia).
  pose proof (elements_inked t Hp) as Hink. rewrite He in Hink. cbn [forallb] in Hink. apply andb_true_iff in Hink as [Hie Hies].
  pose proof (index_word i Hi) as Hwi. pose proof (index_ident i Hi) as Hidi.
  pose proof (left_word i Hi) as Hwl. pose proof (left_ident i Hi) as Hidl.
  (* $define i @vtake(1,...) *)
  unfold bind at 1.
  destruct (line_shape i (left_name i) (S2L "vtake") Hwi Hwl eq_refl) as (L1 & L2 & L3).
  destruct (report_line_define E (S m) (S2L "$define " ++ i ++ S2L " @" ++ S2L "vtake" ++ S2L "(1,%" ++ left_name i ++ S2L "%)")
    s c i e Hd Hn Hr Hidi (inked_printable e Hie) L1 L2 L3) as (s1 & Hrun1 & Hr1 & Hi1).
  { intros s1 Hrd Hvs. apply (expand_v1 m (S2L "vtake") s1 (with_args [] c) i i t e Hi Hwi eq_refl Hrd Hm).
    apply (fneval_vtake E t e es s1); [congruence|exact Hw|exact He]. }
  change (S2L "$define " ++ i ++ S2L " @vtake(1,%" ++ list_name i ++ S2L "%)") with
    (S2L "$define " ++ i ++ S2L " @" ++ S2L "vtake" ++ S2L "(1,%" ++ left_name i ++ S2L "%)").
  rewrite Hrun1. clear L1 L2 L3. rewrite shave_inked in Hr1 by exact Hie.
  (* $define FOREACH__i @vdrop(1,...) *)
  unfold bind at 1. set (c1 := out NL (with_macro i (Some e) c)) in *.
  assert (Hm1 : c_macro c1 (left_name i) = Some t).
  { unfold c1. cbn [c_macro out with_macro]. rewrite str_neq_len by (rewrite left_len; lia). exact Hm. }
  destruct (line_shape (left_name i) (left_name i) (S2L "vdrop") Hwl Hwl eq_refl) as (L1 & L2 & L3).
  destruct (report_line_define E (S m) (S2L "$define " ++ left_name i ++ S2L " @" ++ S2L "vdrop" ++ S2L "(1,%" ++ left_name i ++ S2L "%)")
    s1 c1 (left_name i) (joined (chr 59) es)) as (s2 & Hrun2 & Hr2 & Hi2); auto.
  { rewrite (in_depth _ _ Hi1). exact Hd. }
  { eapply numbered_inside; eauto. }
  { apply inked_printable, joined_inked, Hies. }
  { intros s2 Hrd Hvs. apply (expand_v1 m (S2L "vdrop") s2 (with_args [] c1) i (left_name i) t (joined (chr 59) es) Hi Hwl eq_refl Hrd Hm1).
    apply (fneval_vdrop E t e es s2); [rewrite Hvs, (in_vseps _ _ Hi1); exact Hv|exact Hw|exact He]. }
  change (S2L "$define " ++ list_name i ++ S2L " @vdrop(1,%" ++ list_name i ++ S2L "%)") with
    (S2L "$define " ++ left_name i ++ S2L " @" ++ S2L "vdrop" ++ S2L "(1,%" ++ left_name i ++ S2L "%)").
  rewrite Hrun2. rewrite shave_inked in Hr2 by (apply joined_inked, Hies).
  exists s2. split.
  { unfold ret. f_equal. cbn [length]. lia. }
  split; [|eapply inside_trans; eauto].
  eapply rel_same; [exact Hr2| | | | | | |]; reflexivity.
Qed.

Lemma next_end m (s : rep) (c : conf) i t o :
  index_ok i = true -> rel s c -> r_vseps s = VSEPS ->
  c_macro c (left_name i) = Some t -> list_ok t = true -> elements t = [] ->
  one_copy c i o -> no_copy c (left_name i) ->
  exists s', next_index E (level E (S (S m))) i s = Done (-1) s' /\ rel s' (give_back i o c) /\ inside s s'.
Proof.
  intros Hi Hr Hv Hm Ht He [Ho1 Ho2] Hno. unfold next_index, bind at 1.
  rewrite (expand_count m s c i t Hi Hr Hv Hm Ht). rewrite He.
  change (atoi (to_string (Z.of_nat (length (@nil str))))) with (Some 0). cbv iota.
  change (0 =? 0) with true. cbv iota.
  pose proof (index_ident i Hi) as Hidi. pose proof (left_ident i Hi) as Hidl. pose proof (left_word i Hi) as Hwl.
  pose proof (index_word i Hi) as Hwi.
  unfold bind at 1. destruct (undef_1_ident i s c Hidi Hr) as (rc1 & s1 & -> & Hr1 & Hi1).
  unfold bind at 1. change (list_name i) with (left_name i).
  destruct (undef_1_ident (left_name i) s1 _ Hidl Hr1) as (rc2 & s2 & -> & Hr2 & Hi2).
  unfold bind at 1. destruct (restore_ok i o s2 _ Hi Hr2) as (s3 & -> & Hr3 & Hi3).
  { split.
    - cbn [c_macro with_macro]. rewrite !str_neq_len by (rewrite ?left_len, kept_len; lia). exact Ho1.
    - intros t' Ht'. cbn [c_macro with_macro]. rewrite !word_sharp by assumption. apply Ho2, Ht'. }
  unfold bind at 1. destruct (restore_none (left_name i) s3 _ Hidl Hr3) as (s4 & -> & Hr4 & Hi4).
  { intros t'. cbn [c_macro with_macro]. rewrite !str_neq_len by (rewrite ?left_len, ?kept_len, !app_length, ?left_len; cbn [length]; lia).
    apply Hno. }
  exists s4. split; [reflexivity|]. split; [|exact (inside_trans _ _ _ Hi1 (inside_trans _ _ _ Hi2 (inside_trans _ _ _ Hi3 Hi4)))].
  eapply rel_same; [exact Hr4| | | | | | |]; try reflexivity.
  intros k. unfold give_back. cbn [c_macro with_macro].
  destruct (str_eqb (left_name i) k) eqn:H1; [|destruct (str_eqb (kept_name i) k); [reflexivity|destruct (str_eqb i k); reflexivity]].
  apply str_eqb_iff in H1. subst k. rewrite !str_neq_len by (rewrite ?left_len, ?kept_len; lia). reflexivity.
Qed.
End Loops.
