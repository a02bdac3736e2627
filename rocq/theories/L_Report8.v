(** Lemmas: the lines of the loops; a report with loops. *)
From Coq Require Import ZArith Ascii String List Bool Lia ZifyBool.
From Verif Require Import M_Base M_Names M_Lex M_Kdb M_Grep M_Report S_Report S_Names L_Names L_Kdb L_Time L_Report L_Report2 L_Report3 L_Report4 L_Report5 L_Report6 L_Report7.
Import ListNotations.
Open Scope Z_scope.

Section Loops.
Context {W : Type} (E : env W).
Notation rep := (rep W).
Notation conf := (conf W).

(** * $foreach *)
Lemma split_index i v : index_ok i = true -> printable v = true ->
  exists room, splitline (shave (i ++ BLANK :: v)) = Split i (shave v) room.
Proof.
  intros Hi Hv. pose proof (index_word i Hi) as Hw. pose proof (index_len i Hi) as Hl.
  rewrite shave_word by (try apply word_inked; try apply word_ne; exact Hw).
  destruct (rstrip v) as [|d u] eqn:Hr.
  - exists false. rewrite splitline_alone by (try exact Hw; lia). f_equal. rewrite <- shave_rstrip, Hr. reflexivity.
  - exists true. rewrite splitline_word; [|exact Hw|lia|].
    + rewrite <- Hr, shave_rstrip. reflexivity.
    + rewrite <- Hr. unfold rstrip. apply printable_rev, printable_unblank, printable_rev, Hv.
Qed.
(** The state after the two definitions. *)
Definition entering (i t : str) (c : conf) : conf :=
  out NL (with_macro (left_name i) (Some t) (with_macro i (Some t) (keep i c))).
Lemma foreach_head m (s : rep) (c : conf) i v room :
  index_ok i = true -> rel s c -> numbered s -> 1 <= r_depth s -> r_vseps s = VSEPS -> list_ok v = true ->
  no_copy c i -> no_copy c (left_name i) -> c_macro c (left_name i) = None ->
  exists s', foreach E (level E (S (S m))) (Arg (shave (i ++ BLANK :: v)) room) s =
      bind (next_index E (level E (S (S m))) i)
        (fun rc => (if rc <? 0 then goto_label (S2L "next") i else ret 0) ;;; ret 0) s' /\
    rel s' (entering i (shave v) c) /\ inside s s'.
Proof.
  intros Hi Hr Hn Hd Hv Ht Hc1 Hc2 Hm. pose proof (list_ok_parts v Ht) as (Hp & Hw & Hlen).
  unfold foreach, with_text. destruct (split_index i v Hi Hp) as [rm ->].
  pose proof (index_ident i Hi) as Hidi. pose proof (left_ident i Hi) as Hidl. pose proof (left_word i Hi) as Hwl.
  pose proof (index_word i Hi) as Hwi.
  unfold bind at 1. destruct (save_ok i s c Hi Hr Hc1) as (s1 & -> & Hr1 & Hi1).
  unfold bind at 1. change (list_name i) with (left_name i). rewrite (save_none (left_name i) s1 (keep i c) Hidl Hr1).
  2:{ unfold keep. destruct (c_macro c i); [|exact Hm]. cbn [c_macro with_macro].
      rewrite str_neq_len by (rewrite left_len, kept_len; lia). exact Hm. }
  unfold bind at 1. rewrite define_1_ident by exact Hidi. set (s2 := set_macros _ s1).
  set (c2 := with_macro i (Some (shave v)) (keep i c)).
  assert (Hr2 : rel s2 c2).
  { apply (rel_macros s1 (keep i c) _ _ Hr1). intros k. rewrite lookup_put, (rl_macro s1 _ Hr1). reflexivity. }
  assert (Hi2 : inside s s2) by (eapply inside_trans; [exact Hi1|apply inside_macros]).
  unfold bind at 1.
  destruct (report_line_define E m (S2L "$define " ++ left_name i ++ S2L " %" ++ i ++ S2L "%") s2 c2 (left_name i) (shave v))
    as (s3 & Hrun & Hr3 & Hi3); auto.
  - rewrite (in_depth _ _ Hi2). exact Hd.
  - eapply numbered_inside; eauto.
  - apply printable_shave, Hp.
  - discriminate.
  - rewrite !without_app. rewrite (word_without _ i), (word_without _ (left_name i)) by (assumption || reflexivity). reflexivity.
  - unfold goes_on. rewrite !rev_app_distr. change (rev (S2L "%")) with [PERCENT]. cbn [app].
    match goal with |- context [match ?l with [] => false | _ => _ end] => destruct l; reflexivity end.
  - intros s3 Hrd _. change (f_expand (level E (S m))) with (expand_F E (level E m)).
    pose proof (expand_pieces E (level E m) _ (lits (S2L "$define " ++ left_name i ++ [BLANK]) ++ [Ref i]) s3 Hrd) as He.
    rewrite source_app, value_app, source_lits, value_lits in He. unfold source, value in He. cbn [flat_map source1 value1] in He.
    assert (Hk : g_macro (reading_of E (with_args [] c2)) i = Some (shave v)).
    { unfold reading_of. cbn [g_macro]. change (to_key ASIS_CASE i) with (key i).
      rewrite ?key_ident by exact Hidi. cbn [c_macro with_args c2 with_macro]. rewrite str_eqb_refl. reflexivity. }
    rewrite Hk in He. rewrite !app_nil_r in He.
    replace ((S2L "$define " ++ left_name i ++ [BLANK]) ++ wrap PERCENT PERCENT i) with
      (S2L "$define " ++ left_name i ++ S2L " %" ++ i ++ S2L "%") in He
      by (rewrite <- !app_assoc; reflexivity).
    replace ((S2L "$define " ++ left_name i ++ [BLANK]) ++ shave v) with
      (S2L "$define " ++ left_name i ++ BLANK :: shave v) in He
      by (rewrite <- !app_assoc; reflexivity).
    apply He. rewrite forallb_app, lits_ok.
    + cbn [forallb andb]. rewrite ref_ok by assumption. reflexivity.
    + rewrite !without_app. rewrite (word_without _ (left_name i)) by (assumption || reflexivity). reflexivity.
  - rewrite Hrun. rewrite shave_idem in Hr3.
    exists s3. split; [reflexivity|]. split; [|eapply inside_trans; eauto].
    exact Hr3.
Qed.

Lemma keep_other i c k : k <> kept_name i -> c_macro (keep i c) k = @c_macro W c k.
Proof.
  intros H. unfold keep. destruct (c_macro c i); [|reflexivity]. cbn [c_macro with_macro].
  destruct (str_eqb (kept_name i) k) eqn:He; [|reflexivity]. apply str_eqb_iff in He. congruence.
Qed.
Lemma keep_kept i (c : conf) : no_copy c i -> c_macro (keep i c) (kept_name i) = c_macro c i.
Proof.
  intros H. unfold keep. destruct (c_macro c i) eqn:Hc.
  - cbn [c_macro with_macro]. rewrite str_eqb_refl. reflexivity.
  - apply (H [chr 48]).
Qed.
Lemma entering_left i t (c : conf) : c_macro (entering i t c) (left_name i) = Some t.
Proof. unfold entering. cbn [c_macro out with_macro]. rewrite str_eqb_refl. reflexivity. Qed.
Lemma entering_copy i t (c : conf) : index_ok i = true -> no_copy c i -> one_copy (entering i t c) i (c_macro c i).
Proof.
  intros Hi Hn. unfold entering. split.
  - cbn [c_macro out with_macro]. rewrite !str_neq_len by (rewrite ?left_len, kept_len; lia). apply keep_kept, Hn.
  - intros u Hu. cbn [c_macro out with_macro]. rewrite word_sharp by (apply left_word, Hi).
    rewrite word_sharp by (apply index_word, Hi). rewrite keep_other; [apply Hn|].
    unfold kept_name. intros He. apply app_inv_head in He. change (S2L "#0") with ([SHARP] ++ [chr 48]) in He.
    apply app_inv_head in He. congruence.
Qed.
Lemma entering_no i t (c : conf) : no_copy c (left_name i) -> no_copy (entering i t c) (left_name i).
Proof.
  intros Hn u. unfold entering. cbn [c_macro out with_macro].
  rewrite !str_neq_len by (rewrite ?left_len, !app_length, ?left_len; cbn [length]; lia).
  rewrite keep_other; [apply Hn|]. intros He. apply (f_equal (@length _)) in He.
  rewrite kept_len, !app_length, left_len in He. cbn [length] in He. lia.
Qed.

Lemma foreach_enter m (s : rep) (c : conf) i v room e es :
  index_ok i = true -> rel s c -> numbered s -> 1 <= r_depth s -> r_vseps s = VSEPS -> list_ok v = true ->
  no_copy c i -> no_copy c (left_name i) -> c_macro c (left_name i) = None ->
  elements v = e :: es ->
  exists s', foreach E (level E (S (S (S m)))) (Arg (shave (i ++ BLANK :: v)) room) s = Done 0 s' /\
    rel s' (turn i e es (out NL (keep i c))) /\ inside s s'.
Proof.
  intros Hi Hr Hn Hd Hv Ht Hc1 Hc2 Hm He.
  destruct (foreach_head (S m) s c i v room Hi Hr Hn Hd Hv Ht Hc1 Hc2 Hm) as (s1 & -> & Hr1 & Hi1).
  unfold bind at 1.
  destruct (next_turn E m s1 (entering i (shave v) c) i (shave v) e es Hi Hr1) as (s2 & -> & Hr2 & Hi2).
  - eapply numbered_inside; eauto.
  - rewrite (in_depth _ _ Hi1). exact Hd.
  - rewrite (in_vseps _ _ Hi1). exact Hv.
  - apply entering_left.
  - apply list_ok_shave, Ht.
  - rewrite shave_elements. exact He.
  - replace (Z.of_nat (length es) <? 0) with false by lia. exists s2. split; [reflexivity|].
    split; [|eapply inside_trans; eauto].
    eapply rel_same; [exact Hr2| | | | | | |]; try reflexivity.
    + intros k. unfold turn, entering. cbn [c_macro out with_macro].
      destruct (str_eqb (left_name i) k); [reflexivity|]. destruct (str_eqb i k); reflexivity.
Qed.

Lemma goto_next id prog pc (s : rep) (c : conf) i : forallb stmt_ok prog = true -> index_ok i = true ->
  loaded id (map line_of prog) pc s -> rel s c ->
  exists rc s', goto_label (S2L "next") i s = Done rc s' /\ rel s' c /\
    loaded id (map line_of prog) (match after_next i (skipn pc prog) with Some k => pc + k | None => Nat.max pc (length prog) end)%nat s' /\
    frame id s s'.
Proof.
  intros Hok Hi Hld Hr. pose proof Hld as (H1 & H2 & _). rewrite after_next_target. unfold goto_label, bind at 1, current. rewrite H2.
  unfold bind at 1, file_of. rewrite H1. unfold bind at 1.
  change (str_eqb (S2L "next") (S2L "label")) with false. cbv iota. unfold ret at 1. cbn [rf_lines].
  rewrite sqz_word by (apply index_word, Hi).
  rewrite (find_label_spec id (S2L "next") (to_lower i) prog (or_intror eq_refl) Hok pc)
    by first [rewrite map_length; lia | exact Hld].
  destruct (after_target _ _ (skipn pc prog)) as [k|].
  - do 2 eexists. split; [reflexivity|]. split; [apply rel_at, Hr|]. split; [eapply loaded_at, Hld|apply frame_at].
  - destruct (Nat.ltb pc (length prog)) eqn:Hlt; do 2 eexists; (split; [reflexivity|]).
    + replace (Nat.max pc (length prog)) with (length prog) by lia.
      split; [apply rel_at, Hr|]. split; [eapply loaded_at, Hld|apply frame_at].
    + replace (Nat.max pc (length prog)) with pc by lia. split; [exact Hr|]. split; [exact Hld|apply frame_refl].
Qed.

Lemma foreach_skip m id prog pc (s : rep) (c : conf) i v room :
  forallb stmt_ok prog = true -> loaded id (map line_of prog) pc s ->
  index_ok i = true -> rel s c -> 1 <= r_depth s -> r_vseps s = VSEPS -> list_ok v = true ->
  no_copy c i -> no_copy c (left_name i) -> c_macro c (left_name i) = None ->
  elements v = [] ->
  exists s', foreach E (level E (S (S m))) (Arg (shave (i ++ BLANK :: v)) room) s = Done 0 s' /\
    rel s' (out NL c) /\
    loaded id (map line_of prog) (match after_next i (skipn pc prog) with Some k => pc + k | None => Nat.max pc (length prog) end)%nat s' /\
    frame id s s'.
Proof.
  intros Hok Hl Hi Hr Hd Hv Ht Hc1 Hc2 Hm He.
  destruct (foreach_head m s c i v room Hi Hr (proj2 (proj2 Hl)) Hd Hv Ht Hc1 Hc2 Hm) as (s1 & -> & Hr1 & Hi1).
  unfold bind at 1.
  destruct (next_end E m s1 (entering i (shave v) c) i (shave v) (c_macro c i) Hi Hr1) as (s2 & -> & Hr2 & Hi2).
  - rewrite (in_vseps _ _ Hi1). exact Hv.
  - apply entering_left.
  - apply list_ok_shave, Ht.
  - rewrite shave_elements. exact He.
  - apply entering_copy; assumption.
  - apply entering_no; assumption.
  - change (-1 <? 0) with true. cbv iota.
    pose proof (inside_loaded id _ pc s s2 (inside_trans _ _ _ Hi1 Hi2) Hl) as Hl2.
    assert (Hrel : rel s2 (out NL c)).
    { eapply rel_same; [exact Hr2| | | | | | |]; try reflexivity.
      - intros k. unfold give_back, entering. cbn [c_macro out with_macro].
        destruct (str_eqb (kept_name i) k) eqn:H1.
        { apply str_eqb_iff in H1. subst k. symmetry. apply (Hc1 [chr 48]). }
        destruct (str_eqb i k) eqn:H2; [apply str_eqb_iff in H2; subst k; reflexivity|].
        destruct (str_eqb (left_name i) k) eqn:H3; [apply str_eqb_iff in H3; subst k; symmetry; exact Hm|].
        rewrite keep_other; [reflexivity|]. intros ->. rewrite str_eqb_refl in H1. discriminate.
      - unfold give_back, entering, keep. cbn [c_args out with_macro]. destruct (c_macro c i); reflexivity.
      - unfold give_back, entering, keep. cbn [c_args out with_macro]. destruct (c_macro c i); reflexivity.
      - unfold give_back, entering, keep. cbn [c_args out with_macro]. destruct (c_macro c i); reflexivity.
      - unfold give_back, entering, keep. cbn [c_args out with_macro]. destruct (c_macro c i); reflexivity.
      - unfold give_back, entering, keep. cbn [c_args out with_macro]. destruct (c_macro c i); reflexivity.
      - unfold give_back, entering, keep. cbn [c_args out with_macro]. destruct (c_macro c i); reflexivity. }
    assert (Hf : frame id s s2) by (apply inside_frame; eapply inside_trans; eauto).
    unfold bind at 1.
    destruct (goto_next id prog pc s2 (out NL c) i Hok Hi Hl2 Hrel) as (rc & s3 & -> & Hr3 & Hl3 & Hf3).
    exists s3. split; [reflexivity|]. split; [exact Hr3|]. split; [exact Hl3|eapply frame_trans; eauto].
Qed.

(** * $next *)
Definition finds (i line : str) : option bool :=
  match command_of line with
  | None => Some false
  | Some t =>
    match splitline t with
    | Split name arg _ =>
      Some (match str_eqb (to_lower name) (S2L "foreach"), vtoms [BLANK] arg with
            | true, p :: _ => str_eqb i p
            | _, _ => false
            end)
    | _ => None
    end
  end.
Lemma finds_word i w r : word w = true -> (length w <= 30)%nat ->
  match r with [] => True | c :: _ => word_char c = false end ->
  str_eqb (to_lower w) (S2L "foreach") = false ->
  finds i (chr 36 :: w ++ r) = Some false.
Proof.
  intros Hw Hl Hr Hne. unfold finds. rewrite command_of_word by exact Hw.
  destruct (splitline_name w r Hw Hl Hr) as (a & room & ->). rewrite Hne. reflexivity.
Qed.
Lemma finds_line i st : stmt_ok st = true -> finds i (line_of st) = Some (is_foreach i st).
Proof.
  intros H. unfold stmt_ok in H. rewrite andb_true_iff in H. destruct H as [_ H]. unfold line_of.
  assert (Hword : forall w r, word w = true -> (length w <= 30)%nat -> str_eqb (to_lower w) (S2L "foreach") = false ->
      finds i (chr 36 :: w ++ BLANK :: r) = Some false).
  { intros w r Hw Hl Hn. apply finds_word; auto. }
  destruct st as [ps|ps|name ps|name|l|l [ps|]|ig name ps|p|k| | |j ps|j|name fs| |name ps]; cbn [written is_foreach];
    rewrite ?source_app, ?source_lits.
  - unfold finds. rewrite command_of_texty by exact H. reflexivity.
  - reflexivity.
  - apply (Hword (S2L "define") ((name ++ [BLANK]) ++ source ps)); reflexivity || (cbn; lia).
  - apply (Hword (S2L "undef") name); reflexivity || (cbn; lia).
  - apply (Hword (S2L "label") l); reflexivity || (cbn; lia).
  - apply (Hword (S2L "goto") ((l ++ [BLANK]) ++ source ps)); reflexivity || (cbn; lia).
  - apply (Hword (S2L "goto") l); reflexivity || (cbn; lia).
  - apply andb_true_iff in H as [H Hr]. apply andb_true_iff in H as [Hw Hl].
    destruct ig; cbn [app].
    + reflexivity.
    + rewrite <- app_assoc. cbn [app].
      apply negb_true_iff in Hr. cbn [reserved map existsb] in Hr.
      repeat (apply orb_false_iff in Hr as [?H Hr]).
      apply Hword; auto. lia.
  - apply (Hword (S2L "onerror") (policy_word p)); reflexivity || (cbn; lia).
  - apply (Hword (S2L "shift") (to_string k)); reflexivity || (cbn; lia).
  - reflexivity.
  - reflexivity.
  - apply andb_true_iff in H as [Hj Hp]. pose proof (index_word j Hj) as Hwj.
    change (S2L "$foreach " ++ j ++ [BLANK]) with (chr 36 :: S2L "foreach" ++ BLANK :: j ++ [BLANK]).
    cbn [app]. repeat (rewrite <- app_assoc; cbn [app]).
    unfold finds. rewrite command_of_word by reflexivity. rewrite splitline_word; [|reflexivity|cbn; lia|].
    2:{ apply printable_app. split; [apply inked_printable, word_inked, Hwj|apply printable_cons; split; [cbn; lia|exact Hp]]. }
    change (str_eqb (to_lower (S2L "foreach")) (S2L "foreach")) with true. cbv iota.
    rewrite shave_word by (try apply word_inked; try apply word_ne; exact Hwj).
    assert (Hcl : clean (mem [BLANK]) j = true).
    { unfold clean. pose proof (word_ne j Hwj). destruct j as [|d j']; [congruence|]. cbn [nonempty andb].
      pose proof (word_without [32] (d :: j') Hwj eq_refl) as Hwo. unfold without in Hwo.
      rewrite forallb_forall in *. intros x Hx. rewrite (mem_codes [32]) by (cbn; lia). apply (Hwo x Hx). }
    destruct (rstrip (source ps)) as [|d u].
    + rewrite vtoms_tokens, tokens_one by exact Hcl. reflexivity.
    + rewrite vtoms_tokens. rewrite tokens_app by reflexivity. rewrite tokens_one by exact Hcl. reflexivity.
  - apply (Hword (S2L "next") j); reflexivity || (cbn; lia).
  - apply (Hword (S2L "procdef") (name ++ flat_map (cons BLANK) fs)); reflexivity || (cbn; lia).
  - reflexivity.
  - apply (Hword (S2L "procexec") ((name ++ [BLANK]) ++ source ps)); reflexivity || (cbn; lia).
Qed.

Lemma back_finds id prog i pf ps : forallb stmt_ok prog = true -> nth_error prog pf = Some (SForeach i ps) ->
  forall d M (s : rep), loaded id (map line_of prog) (S (S (d + pf))) s -> (d + pf < length prog)%nat ->
  (forall k st, (pf < k <= d + pf)%nat -> nth_error prog k = Some st -> is_foreach i st = false) ->
  f_back (level E (S (d + M))) i s =
  bind (next_index E (level E M) i) (fun rc => ret (if 0 <? rc then 0 else rc))
    (at_ id {| rf_lines := map line_of prog; rf_pos := S pf |} s).
Proof.
  intros Hok Hpf d. induction d as [|d IH]; intros M s Hl Hlen Hno.
  - cbn [plus] in *. change (f_back (level E (S M))) with (back_F E (level E M)).
    pose proof Hl as (H1 & H2 & H3). unfold back_F. unfold bind at 1, current. rewrite H2.
    unfold bind at 1, file_of. rewrite H1. cbn [rf_pos]. replace (Nat.leb (S (S pf)) 1) with false by lia.
    unfold bind at 1. rewrite (set_pos_at id _ _ s H1). cbn [rf_lines]. replace (S (S pf) - 2)%nat with pf by lia.
    unfold bind at 1, read_line, bind at 1.
    assert (Hst : stmt_ok (SForeach i ps) = true).
    { rewrite forallb_forall in Hok. apply Hok. eapply nth_error_In; eauto. }
    rewrite (read_raw_line id (map line_of prog) pf _ (line_of (SForeach i ps))).
    2:{ eapply loaded_at, Hl. }
    2:{ rewrite nth_error_map, Hpf. reflexivity. }
    2:{ unfold stmt_ok in Hst. apply andb_true_iff in Hst as [Hg _]. apply negb_true_iff, Hg. }
    unfold bind at 1. rewrite indent_id by (apply line_unindent, Hst). unfold ret at 1.
    pose proof (finds_line i _ Hst) as Hfi. unfold finds in Hfi.
    destruct (command_of (line_of (SForeach i ps))) as [t|]; [|cbn in Hfi; rewrite str_eqb_refl in Hfi; discriminate].
    destruct (splitline t) as [| |name arg room]; try discriminate.
    cbn [is_foreach] in Hfi. rewrite str_eqb_refl in Hfi. apply Some_inj in Hfi.
    destruct (str_eqb (to_lower name) (S2L "foreach")); [|discriminate].
    destruct (vtoms [BLANK] arg) as [|p l]; [discriminate|]. rewrite Hfi. rewrite at_at. reflexivity.
  - change (f_back (level E (S (S d + M)))) with (back_F E (level E (S (d + M)))).
    pose proof Hl as (H1 & H2 & H3). unfold back_F. unfold bind at 1, current. rewrite H2.
    unfold bind at 1, file_of. rewrite H1. cbn [rf_pos]. replace (Nat.leb (S (S (S d + pf))) 1) with false by lia.
    unfold bind at 1. rewrite (set_pos_at id _ _ s H1). cbn [rf_lines]. replace (S (S (S d + pf)) - 2)%nat with (S d + pf)%nat by lia.
    unfold bind at 1, read_line, bind at 1.
    destruct (nth_error prog (S d + pf)) as [st|] eqn:Hnth.
    2:{ apply nth_error_None in Hnth. lia. }
    assert (Hst : stmt_ok st = true).
    { rewrite forallb_forall in Hok. apply Hok. eapply nth_error_In; eauto. }
    rewrite (read_raw_line id (map line_of prog) (S d + pf) _ (line_of st)).
    2:{ eapply loaded_at, Hl. }
    2:{ rewrite nth_error_map, Hnth. reflexivity. }
    2:{ unfold stmt_ok in Hst. apply andb_true_iff in Hst as [Hg _]. apply negb_true_iff, Hg. }
    unfold bind at 1. rewrite indent_id by (apply line_unindent, Hst). unfold ret at 1.
    rewrite at_at.
    pose proof (finds_line i _ Hst) as Hfi. unfold finds in Hfi.
    rewrite (Hno (S d + pf)%nat st ltac:(lia) Hnth) in Hfi.
    assert (Hgo : f_back (level E (S (d + M))) i (at_ id {| rf_lines := map line_of prog; rf_pos := S (S d + pf) |} s) =
      bind (next_index E (level E M) i) (fun rc => ret (if 0 <? rc then 0 else rc))
        (at_ id {| rf_lines := map line_of prog; rf_pos := S pf |} s)).
    { rewrite IH.
      - rewrite at_at. reflexivity.
      - replace (S (S (d + pf))) with (S (S d + pf)) by lia. eapply loaded_at, Hl.
      - lia.
      - intros k st' Hk Hn. apply (Hno k st'); [lia|exact Hn]. }
    destruct (command_of (line_of st)) as [t|]; [|exact Hgo].
    destruct (splitline t) as [| |name arg room]; try discriminate. apply Some_inj in Hfi.
    destruct (str_eqb (to_lower name) (S2L "foreach")); [|exact Hgo].
    destruct (vtoms [BLANK] arg) as [|p l]; [exact Hgo|]. rewrite Hfi. exact Hgo.
Qed.

Lemma next_line i : index_ok i = true ->
  splitline (S2L "next" ++ BLANK :: i) = Split (S2L "next") i true.
Proof.
  intros Hi. pose proof (word_inked i (index_word i Hi)) as H.
  rewrite splitline_word; [|reflexivity|cbn; lia|apply inked_printable, H]. rewrite shave_inked by exact H. reflexivity.
Qed.

(** * One line *)
Lemma loop_moves id prog pc (s : rep) (c : conf) pc' c' :
  forallb stmt_ok prog = true -> rel s c -> loaded id (map line_of prog) pc s ->
  r_vseps s = VSEPS -> 1 <= r_depth s -> moves E prog pc c pc' c' ->
  exists s' m0, (forall m, (m0 <= m)%nat -> f_loop (level E (S (S m))) id s = f_loop (level E (S m)) id s') /\
    rel s' c' /\ loaded id (map line_of prog) pc' s' /\ frame id s s'.
Proof.
  intros Hok Hr Hl Hv Hd Hm.
  set (s1 := at_ id {| rf_lines := map line_of prog; rf_pos := S pc |} s).
  assert (Hr1 : rel s1 c) by (apply rel_at, Hr).
  assert (Hl1 : loaded id (map line_of prog) (S pc) s1) by (eapply loaded_at, Hl).
  assert (Hf1 : frame id s s1) by (apply frame_at).
  assert (Hstmt : forall k st, nth_error prog k = Some st -> stmt_ok st = true).
  { intros k st Hk. rewrite forallb_forall in Hok. apply Hok. eapply nth_error_In; eauto. }
  inversion Hm as [pc1 c1 pc1' c1' Hstep|pc1 c1 i ps e es Hn Hp Ht Hc1 Hc2 Hnone He
    |pc1 c1 i ps Hn Hp Ht Hc1 Hc2 Hnone He|pc1 c1 i pf ps t e es Hn Hnf Hlt Hbetween Hp Hleft Ht He
    |pc1 c1 i pf ps t o Hn Hnf Hlt Hbetween Hp Hleft Ht He Ho Hno]; subst.
  - (* a line without loop *)
    pose proof (loop_step E id prog pc s c Hok Hr Hl) as H. rewrite Hstep in H.
    destruct H as (s' & H & Hr' & Hl' & Hf'). exists s', O. auto.
  - (* a loop begins *)
    pose proof (Hstmt _ _ Hn) as Hs. unfold stmt_ok in Hs. apply andb_true_iff in Hs as [_ Hs]. apply andb_true_iff in Hs as [Hi _].
    set (v := value (reading_of E c) ps) in *.
    assert (Hval : value (reading_of E c) (written (SForeach i ps)) = chr 36 :: [] ++ S2L "foreach" ++ BLANK :: i ++ BLANK :: v).
    { cbn [written]. rewrite value_app, value_lits. rewrite <- !app_assoc. reflexivity. }
    pose proof (list_ok_parts v Ht) as (Hpv & _ & _).
    destruct (foreach_enter 0 s1 c i v true e es Hi Hr1 (proj2 (proj2 Hl1))) as (s2 & Hrun & Hr2 & Hi2); auto.
    pose proof (line_command E (level E 4) id (map line_of prog) (S pc) s1 s2 (turn i e es (out NL (keep i c)))
      (S2L "foreach") (BLANK :: i ++ BLANK :: v) (shave (i ++ BLANK :: v)) true 0 false) as Hline.
    destruct Hline as (s' & Hline & Hr' & Hl' & Hf').
    + reflexivity.
    + cbn; lia.
    + apply splitline_word; [reflexivity|cbn; lia|]. apply ident_len_21; [apply index_ident, Hi|exact Hpv].
    + change (f_exec (level E 4)) with (exec_F E (level E 3)). exact Hrun.
    + exact Hr2.
    + eapply inside_loaded; eauto.
    + apply inside_frame, Hi2.
    + exists s', 3%nat. split; [|split; [exact Hr'|split; [exact Hl'|eapply frame_trans; [exact Hf1|exact Hf']]]].
      rewrite <- Hval in Hline.
      apply (loop_line E id prog pc s c (SForeach i ps) 3 None s' Hok Hr Hl Hn Hp); [|exact Hline].
      rewrite Hval. apply unindent_dollar. reflexivity.
  - (* a loop without element *)
    pose proof (Hstmt _ _ Hn) as Hs. unfold stmt_ok in Hs. apply andb_true_iff in Hs as [_ Hs]. apply andb_true_iff in Hs as [Hi _].
    set (v := value (reading_of E c) ps) in *.
    assert (Hval : value (reading_of E c) (written (SForeach i ps)) = chr 36 :: [] ++ S2L "foreach" ++ BLANK :: i ++ BLANK :: v).
    { cbn [written]. rewrite value_app, value_lits. rewrite <- !app_assoc. reflexivity. }
    pose proof (list_ok_parts v Ht) as (Hpv & _ & _).
    destruct (foreach_skip 0 id prog (S pc) s1 c i v true Hok Hl1 Hi Hr1) as (s2 & Hrun & Hr2 & Hl2 & Hf2); auto.
    pose proof (line_command E (level E 3) id (map line_of prog)
      (match after_next i (skipn (S pc) prog) with Some k => S pc + k | None => Nat.max (S pc) (length prog) end)%nat s1 s2 (out NL c)
      (S2L "foreach") (BLANK :: i ++ BLANK :: v) (shave (i ++ BLANK :: v)) true 0 false) as Hline.
    destruct Hline as (s' & Hline' & Hr' & Hl' & Hf').
    + reflexivity.
    + cbn; lia.
    + apply splitline_word; [reflexivity|cbn; lia|]. apply ident_len_21; [apply index_ident, Hi|exact Hpv].
    + change (f_exec (level E 3)) with (exec_F E (level E 2)). exact Hrun.
    + exact Hr2.
    + exact Hl2.
    + exact Hf2.
    + exists s', 2%nat. split; [|split; [exact Hr'|split; [exact Hl'|eapply frame_trans; [exact Hf1|exact Hf']]]].
      rewrite <- Hval in Hline'.
      apply (loop_line E id prog pc s c (SForeach i ps) 2 None s' Hok Hr Hl Hn Hp); [|exact Hline'].
      rewrite Hval. apply unindent_dollar. reflexivity.
  - (* the next turn *)
    pose proof (Hstmt _ _ Hn) as Hs. unfold stmt_ok in Hs. apply andb_true_iff in Hs as [_ Hi].
    assert (Hval : value (reading_of E c) (written (SNext i)) = chr 36 :: [] ++ S2L "next" ++ BLANK :: i).
    { cbn [written]. rewrite value_lits. reflexivity. }
    set (d := (pc - 1 - pf)%nat).
    pose proof (back_finds id prog i pf ps Hok Hnf d 3 s1) as Hb.
    replace (S (S (d + pf))) with (S pc) in Hb by (unfold d; lia).
    specialize (Hb Hl1). assert (Hpcl : (pc < length prog)%nat) by (apply nth_error_Some; congruence).
    specialize (Hb ltac:(unfold d; lia)). specialize (Hb ltac:(intros k st Hk; apply Hbetween; unfold d in Hk; lia)).
    set (s2 := at_ id {| rf_lines := map line_of prog; rf_pos := S pf |} s1) in *.
    assert (Hr2 : rel s2 c) by (apply rel_at, Hr1).
    assert (Hl2 : loaded id (map line_of prog) (S pf) s2) by (eapply loaded_at, Hl1).
    assert (Hf2 : frame id s s2) by (eapply frame_trans; [exact Hf1|apply frame_at]).
    destruct (next_turn E 0 s2 c i t e es Hi Hr2 (proj2 (proj2 Hl2)) Hd Hv Hleft Ht He) as (s3 & Hrun & Hr3 & Hi3).
    assert (Hnext : foreach_next E (level E (S (d + 3))) (Arg i true) s1 = Done 0 s3).
    { unfold foreach_next, with_text, bind at 1, current. pose proof Hl1 as (HA & HB & _). rewrite HB.
      unfold bind at 1, file_of. rewrite HA. unfold bind at 1.
      unfold vtomsq. rewrite vtomsq_word by (try apply word_ne; try apply word_seps; apply index_word, Hi).
      rewrite sqz_word by (apply index_word, Hi). rewrite Hb. unfold bind. rewrite Hrun. unfold ret.
      destruct es as [|e' es']; [reflexivity|]. replace (0 <? Z.of_nat (length (e' :: es'))) with true by (cbn [length]; lia). reflexivity. }
    pose proof (line_command E (level E (S (S (d + 3)))) id (map line_of prog) (S pf) s1 s3 (turn i e es c)
      (S2L "next") (BLANK :: i) i true 0 false) as Hline.
    destruct Hline as (s' & Hline & Hr' & Hl' & Hf').
    + reflexivity.
    + cbn; lia.
    + apply next_line, Hi.
    + change (f_exec (level E (S (S (d + 3))))) with (exec_F E (level E (S (d + 3)))). exact Hnext.
    + exact Hr3.
    + eapply inside_loaded; eauto.
    + eapply frame_trans; [apply frame_at|apply inside_frame, Hi3].
    + exists s', (S (d + 3))%nat. split; [|split; [exact Hr'|split; [exact Hl'|eapply frame_trans; [exact Hf1|exact Hf']]]].
      rewrite <- Hval in Hline.
      apply (loop_line E id prog pc s c (SNext i) (S (d + 3)) None s' Hok Hr Hl Hn Hp); [|exact Hline].
      rewrite Hval. apply unindent_dollar. reflexivity.
  - (* the end of a loop *)
    pose proof (Hstmt _ _ Hn) as Hs. unfold stmt_ok in Hs. apply andb_true_iff in Hs as [_ Hi].
    assert (Hval : value (reading_of E c) (written (SNext i)) = chr 36 :: [] ++ S2L "next" ++ BLANK :: i).
    { cbn [written]. rewrite value_lits. reflexivity. }
    set (d := (pc - 1 - pf)%nat).
    pose proof (back_finds id prog i pf ps Hok Hnf d 2 s1) as Hb.
    replace (S (S (d + pf))) with (S pc) in Hb by (unfold d; lia).
    specialize (Hb Hl1). assert (Hpcl : (pc < length prog)%nat) by (apply nth_error_Some; congruence).
    specialize (Hb ltac:(unfold d; lia)). specialize (Hb ltac:(intros k st Hk; apply Hbetween; unfold d in Hk; lia)).
    set (s2 := at_ id {| rf_lines := map line_of prog; rf_pos := S pf |} s1) in *.
    assert (Hr2 : rel s2 c) by (apply rel_at, Hr1).
    assert (Hl2 : loaded id (map line_of prog) (S pf) s2) by (eapply loaded_at, Hl1).
    destruct (next_end E 0 s2 c i t o Hi Hr2 Hv Hleft Ht He Ho Hno) as (s3 & Hrun & Hr3 & Hi3).
    pose proof (inside_loaded id _ _ s2 s3 Hi3 Hl2) as Hl3.
    set (s4 := at_ id {| rf_lines := map line_of prog; rf_pos := S pc |} s3).
    assert (Hnext : foreach_next E (level E (S (d + 2))) (Arg i true) s1 = Done 0 s4).
    { unfold foreach_next, with_text, bind at 1, current. pose proof Hl1 as (HA & HB & _). rewrite HB.
      unfold bind at 1, file_of. rewrite HA. unfold bind at 1.
      unfold vtomsq. rewrite vtomsq_word by (try apply word_ne; try apply word_seps; apply index_word, Hi).
      rewrite sqz_word by (apply index_word, Hi). rewrite Hb. unfold bind at 1. rewrite Hrun. unfold ret at 1.
      change (0 <? -1) with false. cbv iota. change (-1 =? 0) with false. cbv iota.
      destruct Hl3 as (HC & HD & _). unfold bind, current. rewrite HD. cbn [rf_pos]. rewrite (set_pos_at id _ _ s3 HC). reflexivity. }
    pose proof (line_command E (level E (S (S (d + 2)))) id (map line_of prog) (S pc) s1 s4 (give_back i o c)
      (S2L "next") (BLANK :: i) i true 0 false) as Hline.
    destruct Hline as (s' & Hline & Hr' & Hl' & Hf').
    + reflexivity.
    + cbn; lia.
    + apply next_line, Hi.
    + change (f_exec (level E (S (S (d + 2))))) with (exec_F E (level E (S (d + 2)))). exact Hnext.
    + apply rel_at, Hr3.
    + eapply loaded_at, Hl3.
    + eapply frame_trans; [apply frame_at|]. eapply frame_trans; [apply inside_frame, Hi3|apply frame_at].
    + exists s', (S (d + 2))%nat. split; [|split; [exact Hr'|split; [exact Hl'|eapply frame_trans; [exact Hf1|exact Hf']]]].
      rewrite <- Hval in Hline.
      apply (loop_line E id prog pc s c (SNext i) (S (d + 2)) None s' Hok Hr Hl Hn Hp); [|exact Hline].
      rewrite Hval. apply unindent_dollar. reflexivity.
Qed.

(** * Several lines *)
Lemma loop_goes id prog : forallb stmt_ok prog = true ->
  forall pc c pc' c', goes E prog pc c pc' c' ->
  forall s, rel s c -> loaded id (map line_of prog) pc s -> r_vseps s = VSEPS -> 1 <= r_depth s ->
  exists s' k m0, (forall m, (m0 <= m)%nat -> f_loop (level E (S (k + m))) id s = f_loop (level E (S m)) id s') /\
    rel s' c' /\ loaded id (map line_of prog) pc' s' /\ frame id s s'.
Proof.
  intros Hok pc c pc' c' Hg. induction Hg as [pc c|pc c pc1 c1 pc2 c2 Hm Hg IH]; intros s Hr Hl Hv Hd.
  - exists s, O, O. split; [reflexivity|]. split; [exact Hr|]. split; [exact Hl|apply frame_refl].
  - destruct (loop_moves id prog pc s c pc1 c1 Hok Hr Hl Hv Hd Hm) as (s1 & m1 & H1 & Hr1 & Hl1 & Hf1).
    destruct (IH s1 Hr1 Hl1) as (s2 & k & m2 & H2 & Hr2 & Hl2 & Hf2).
    + rewrite (fr_vseps _ _ _ Hf1). exact Hv.
    + rewrite (fr_depth _ _ _ Hf1). exact Hd.
    + exists s2, (S k), (Nat.max m1 m2). split; [|split; [exact Hr2|split; [exact Hl2|eapply frame_trans; eauto]]].
      intros m Hm'. cbn [plus]. rewrite H1 by lia. apply H2. lia.
Qed.

Lemma list_ok_joined v es0 es : list_ok v = true -> elements v = es0 ++ es ->
  list_ok (joined (chr 59) es) = true /\ elements (joined (chr 59) es) = es.
Proof.
  intros Hv He. pose proof (tokens_clean (fun c => among c [59; 44; 32]) v [] eq_refl) as Hc.
  fold (elements v) in Hc. rewrite He, forallb_app in Hc. apply andb_true_iff in Hc as [_ Hc].
  split; [|apply tokens_back; [reflexivity|exact Hc]].
  unfold list_ok in Hv. rewrite !andb_true_iff in Hv. destruct Hv as [[Hp Hw] Hl].
  assert (Hall : forall P, forallb P v = true -> P (chr 59) = true -> forallb P (joined (chr 59) es) = true).
  { intros P HP Hs. apply joined_all; [exact Hs|].
    pose proof (tokens_all P (fun c => among c [59; 44; 32]) v [] HP) as H. fold (elements v) in H.
    rewrite He, forallb_app in H. apply andb_true_iff in H as [_ H]. exact H. }
  unfold list_ok. rewrite !andb_true_iff. split; [split|].
  - apply (Hall _ Hp). reflexivity.
  - apply (Hall _ Hw). reflexivity.
  - assert (Hlen : forall p s w es1 es2, tokens p s w = es1 ++ es2 -> (length (joined (chr 59) es2) <= length w + length s)%nat).
    { clear. intros p s. induction s as [|c s IH]; intros w es1 es2 H; cbn [tokens length] in *.
      - destruct w as [|d w]; cbn [nonempty] in H.
        + symmetry in H. apply app_eq_nil in H as [_ ->]. cbn. lia.
        + destruct es1 as [|e es1].
          * cbn [app] in H. subst es2. cbn [joined length]. lia.
          * injection H as _ H. symmetry in H. apply app_eq_nil in H as [_ ->]. cbn. lia.
      - destruct (p c).
        + destruct w as [|d w]; cbn [nonempty] in H.
          * specialize (IH [] es1 es2 H). cbn [length] in *. lia.
          * destruct es1 as [|e es1].
            -- cbn [app] in H. subst es2. specialize (IH [] [] (tokens p s []) eq_refl). cbn [length] in IH.
               cbn [joined]. destruct (tokens p s []) as [|e es2]; [cbn [length]; lia|].
               rewrite app_length. cbn [length] in *. lia.
            -- injection H as _ H. specialize (IH [] es1 es2 H). cbn [length] in *. lia.
        + specialize (IH _ _ _ H). rewrite app_length in IH. cbn [length] in IH. lia. }
    specialize (Hlen _ v [] es0 es He). cbn [length] in Hlen. lia.
Qed.

Lemma turn_own i e es (c : conf) k : index_ok i = true -> own i k -> k <> left_name i -> c_macro (turn i e es c) k = c_macro c k.
Proof.
  intros Hi Hk Hn. unfold turn. cbn [c_macro out with_macro].
  destruct (str_eqb (left_name i) k) eqn:H1; [apply str_eqb_iff in H1; congruence|].
  destruct (str_eqb i k) eqn:H2; [|reflexivity]. apply str_eqb_iff in H2.
  destruct Hk as [Hk|[[t Hk]|[t Hk]]]; [congruence| |];
    apply (f_equal (@length _)) in Hk; rewrite <- H2, !app_length in Hk; rewrite ?left_len in Hk; cbn [length] in Hk; lia.
Qed.
Lemma turn_left i e es (c : conf) : index_ok i = true -> c_macro (turn i e es c) (left_name i) = Some (joined (chr 59) es).
Proof. intros Hi. unfold turn. cbn [c_macro out with_macro]. rewrite str_eqb_refl. reflexivity. Qed.
Lemma turn_index i e es (c : conf) : index_ok i = true -> c_macro (turn i e es c) i = Some e.
Proof.
  intros Hi. unfold turn. cbn [c_macro out with_macro]. rewrite str_neq_len by (rewrite left_len; lia).
  rewrite str_eqb_refl. reflexivity.
Qed.
Lemma goes_trans prog pc c pc1 c1 pc2 c2 : goes E prog pc c pc1 c1 -> goes E prog pc1 c1 pc2 c2 -> goes E prog pc c pc2 c2.
Proof. induction 1; auto. intros. econstructor; eauto. Qed.

Lemma goes_each prog pf pn i ps (body : conf -> conf) : index_ok i = true ->
  nth_error prog pf = Some (SForeach i ps) -> nth_error prog pn = Some (SNext i) -> (pf < pn)%nat ->
  (forall k st, (pf < k < pn)%nat -> nth_error prog k = Some st -> is_foreach i st = false) ->
  forall v (P : conf -> Prop),
  (forall c e es, P c -> In e (elements v) -> P (turn i e es c)) ->
  (forall c e, P c -> In e (elements v) -> c_macro c i = Some e ->
     goes E prog (S pf) c pn (body c) /\ P (body c) /\ forall k, own i k -> c_macro (body c) k = c_macro c k) ->
  forall es0 es e (c : conf) o, list_ok v = true -> elements v = es0 ++ e :: es -> P c ->
  one_copy c i o -> no_copy c (left_name i) ->
  goes E prog (S pf) (turn i e es c) (S pn) (give_back i o (each i body (e :: es) c)).
Proof.
  intros Hi Hf Hn Hlt Hbt v P Hturn Hall es0 es. revert es0.
  induction es as [|e' es IH]; intros es0 e c o Hv He HP Ho Hno; cbn [each].
  - pose proof (turn_index i e [] c Hi) as Hx.
    assert (Hin : In e (elements v)) by (rewrite He; apply in_elt).
    destruct (Hall _ e (Hturn _ e [] HP Hin) Hin Hx) as (Hbody & HP' & Hkeep).
    eapply goes_trans; [exact Hbody|].
    econstructor; [|constructor].
    eapply moves_leave with (t := []); eauto.
    + cbn [written]. apply lits_ok. rewrite without_app.
      rewrite (word_without _ i) by (try apply index_word; assumption || reflexivity). reflexivity.
    + rewrite Hkeep by (left; reflexivity). rewrite turn_left by exact Hi. reflexivity.
    + destruct Ho as [Ho1 Ho2]. split.
      * rewrite Hkeep by (right; left; exists [chr 48]; reflexivity). rewrite turn_own; auto.
        { right; left; exists [chr 48]; reflexivity. }
        { intros H. apply (f_equal (@length _)) in H. rewrite kept_len, left_len in H. lia. }
      * intros t Ht. rewrite Hkeep by (right; left; exists t; reflexivity). rewrite turn_own; auto.
        { right; left; exists t; reflexivity. }
        { intros H. pose proof (word_sharp (left_name i) i t (left_word i Hi)) as Hs. rewrite H, str_eqb_refl in Hs. discriminate. }
    + intros t. rewrite Hkeep by (right; right; exists t; reflexivity). rewrite turn_own; auto.
      { right; right; exists t; reflexivity. }
      { intros H. apply (f_equal (@length _)) in H. rewrite !app_length in H. cbn [length] in H. lia. }
  - pose proof (turn_index i e (e' :: es) c Hi) as Hx.
    assert (Hin : In e (elements v)) by (rewrite He; apply in_elt).
    destruct (Hall _ e (Hturn _ e (e' :: es) HP Hin) Hin Hx) as (Hbody & HP' & Hkeep).
    set (c1 := body (turn i e (e' :: es) c)).
    assert (Hv' : elements v = (es0 ++ [e]) ++ e' :: es) by (rewrite <- app_assoc; exact He).
    destruct (list_ok_joined v (es0 ++ [e]) (e' :: es) Hv Hv') as [Hj1 Hj2].
    eapply goes_trans; [exact Hbody|].
    eapply goes_cons.
    + eapply moves_again with (t := joined (chr 59) (e' :: es)); eauto.
      * cbn [written]. apply lits_ok. rewrite without_app.
        rewrite (word_without _ i) by (try apply index_word; assumption || reflexivity). reflexivity.
      * rewrite Hkeep by (left; reflexivity). rewrite turn_left by exact Hi. reflexivity.
    + apply (IH (es0 ++ [e]) e' c1 o Hv Hv' HP').
      * unfold c1. destruct Ho as [Ho1 Ho2]. split.
        { rewrite Hkeep by (right; left; exists [chr 48]; reflexivity). rewrite turn_own; auto.
          - right; left; exists [chr 48]; reflexivity.
          - intros H. apply (f_equal (@length _)) in H. rewrite kept_len, left_len in H. lia. }
        { intros t Ht. rewrite Hkeep by (right; left; exists t; reflexivity). rewrite turn_own; auto.
          - right; left; exists t; reflexivity.
          - intros H. pose proof (word_sharp (left_name i) i t (left_word i Hi)) as Hs. rewrite H, str_eqb_refl in Hs. discriminate. }
      * unfold c1. intros t. rewrite Hkeep by (right; right; exists t; reflexivity). rewrite turn_own; auto.
        { right; right; exists t; reflexivity. }
        { intros H. apply (f_equal (@length _)) in H. rewrite !app_length in H. cbn [length] in H. lia. }
Qed.
End Loops.
