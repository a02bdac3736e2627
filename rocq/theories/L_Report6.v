(** Lemmas: the loops of the reports. *)
From Coq Require Import ZArith Ascii String List Bool Lia ZifyBool.
From Verif Require Import M_Base M_Names M_Lex M_Kdb M_Grep M_Report S_Report S_Names L_Names L_Kdb L_Time L_Report L_Report2 L_Report3 L_Report4 L_Report5.
Import ListNotations.
Open Scope Z_scope.

Section Loops.
Context {W : Type} (E : env W).
Notation rep := (rep W).
Notation conf := (conf W).

(** What a line executed from inside a command leaves as it is. *)
Record inside (s s' : rep) : Prop := {
  in_indent : r_indent s' = r_indent s;
  in_multi : r_multi s' = r_multi s;
  in_nopar : r_nopar s' = r_nopar s;
  in_print : r_print s' = r_print s;
  in_vseps : r_vseps s' = r_vseps s;
  in_rptstr : r_rptstr s' = r_rptstr s;
  in_procs : r_procs s' = r_procs s;
  in_depth : r_depth s' = r_depth s;
  in_argv : r_argv s' = r_argv s;
  in_cur : r_cur s' = r_cur s;
  in_files : r_files s' = r_files s;
  in_next : (r_next s <= r_next s')%nat
}.
Lemma inside_refl s : inside s s.
Proof. constructor; reflexivity. Qed.
Lemma inside_trans s1 s2 s3 : inside s1 s2 -> inside s2 s3 -> inside s1 s3.
Proof. intros [] []. constructor; try congruence. lia. Qed.
Lemma inside_frame id s s' : inside s s' -> frame id s s'.
Proof. intros []. constructor; auto. congruence. Qed.
Lemma numbered_inside s s' : inside s s' -> numbered s -> numbered s'.
Proof.
  intros []. unfold numbered. rewrite in_files0. apply Forall_impl. intros e He. lia.
Qed.
Lemma inside_loaded id lines pc s s' : inside s s' -> loaded id lines pc s -> loaded id lines pc s'.
Proof.
  intros H (H1 & H2 & H3). split; [rewrite (in_files _ _ H); exact H1|]. split; [rewrite (in_cur _ _ H); exact H2|].
  apply (numbered_inside s s' H H3).
Qed.
Lemma inside_macros l s : inside s (set_macros l s).
Proof. constructor; reflexivity. Qed.

Lemma file_del_fresh l id : Forall (fun e => (fst e < id)%nat) l -> file_del l id = l.
Proof.
  unfold file_del. induction 1 as [|e l He Hl IH]; [reflexivity|]. cbn [filter].
  replace (Nat.eqb (fst e) id) with false by lia. cbn [negb]. rewrite IH. reflexivity.
Qed.

(** The state in which the line of a command is run. *)
Definition sub (line : str) (s : rep) : rep :=
  set_cur (Some (r_next s))
    (set_files (file_set (r_files s) (r_next s) {| rf_lines := [line]; rf_pos := O |}) (S (r_next s))
       (set_depth (r_depth s + 1) (set_args [S2L "temp.rep"] 0 s))).
Lemma vtoms_line line : line <> [] -> without [10] line = true -> vtoms [chr 10] line = [line].
Proof.
  intros Hne H. rewrite vtoms_tokens. apply tokens_one. unfold clean. destruct line as [|c l]; [congruence|]. cbn [nonempty andb].
  unfold without in H. rewrite forallb_forall in *. intros d Hd. specialize (H d Hd).
  rewrite (mem_codes [10]) by (cbn; lia). exact H.
Qed.
Lemma report_line_sub n line (s : rep) : 1 <= r_depth s -> line <> [] -> without [10] line = true ->
  report_line E (level E n) line s =
  match f_loop (level E n) (r_next s) (sub line s) with
  | Done rc s1 =>
    let s2 := set_cur (r_cur s) (add_event NL s1) in
    let s3 := set_files (file_del (r_files s2) (r_next s)) (r_next s2) s2 in
    let s4 := set_args (r_argv s) (r_arg0 s) (set_depth (r_depth s3 - 1) s3) in
    Done rc (if r_depth s4 =? 0 then set_macros [] s4 else s4)
  | Thrown s1 => Thrown s1
  | Undefined => Undefined
  | Unmodelled => Unmodelled
  | Late => Late
  end.
Proof.
  intros Hd Hne Hnl. unfold report_line, bind at 1, get at 1. unfold bind at 1, modify at 1.
  replace (r_depth s =? 0) with false by lia. rewrite vtoms_line by assumption.
  unfold bind at 1, new_file. cbn [r_next r_files set_args set_depth].
  unfold bind at 1. unfold exec_tbl, bind at 1, get at 1. unfold bind at 1, modify at 1.
  fold (sub line s). change (set_cur (Some (r_next s)) _) with (sub line s).
  unfold bind at 1. destruct (f_loop (level E n) (r_next s) (sub line s)) as [rc s2|s2| | |]; reflexivity.
Qed.

Lemma rel_sub line (s : rep) (c : conf) : rel s c -> rel (sub line s) (with_args [] c).
Proof. intros []. constructor; cbn; auto; try lia; try discriminate. Qed.
Lemma loaded_sub line (s : rep) : numbered s -> loaded (r_next s) [line] 0 (sub line s).
Proof.
  intros Hn. split; [cbn; rewrite Nat.eqb_refl; reflexivity|]. split; [reflexivity|].
  unfold numbered, sub. cbn [r_files r_next set_cur set_files]. constructor; [cbn; lia|].
  unfold numbered in Hn. unfold file_del. rewrite Forall_forall in *. intros e He. apply filter_In in He.
  destruct He as [He _]. specialize (Hn e He). lia.
Qed.

Lemma ident_len_21 n v : ident n = true -> printable v = true -> printable (n ++ BLANK :: v) = true.
Proof.
  intros Hn Hv. apply printable_app. split; [apply inked_printable, ident_inked, Hn|].
  apply printable_cons. split; [cbn; lia|exact Hv].
Qed.
(** A $define run from inside a command. *)
Lemma report_line_define m line (s : rep) (c : conf) name v :
  1 <= r_depth s -> numbered s -> rel s c -> ident name = true -> printable v = true ->
  line <> [] -> without [10] line = true -> goes_on line = false ->
  (forall s1, reads E s1 (reading_of E (with_args [] c)) -> r_vseps s1 = r_vseps s ->
     f_expand (level E (S m)) line s1 = Done (S2L "$define " ++ name ++ BLANK :: v) s1) ->
  exists s', report_line E (level E (S (S m))) line s = Done 0 s' /\
    rel s' (out NL (with_macro name (Some (shave v)) c)) /\ inside s s'.
Proof.
  intros Hd Hnum Hr Hn Hv Hne Hnl Hg Hexp. rewrite report_line_sub by assumption.
  pose proof (rel_sub line s c Hr) as Hr0. pose proof (loaded_sub line s Hnum) as Hl0.
  set (s0 := sub line s) in *. set (id := r_next s) in *.
  change (f_loop (level E (S (S m))) id s0) with (loop_F E (level E (S m)) id s0). unfold loop_F, bind at 1.
  rewrite (read_raw_line id [line] 0 s0 line Hl0 eq_refl Hg). unfold bind at 1.
  set (s1 := at_ id _ s0).
  assert (Hr1 : rel s1 (with_args [] c)) by (apply rel_at, Hr0).
  assert (Hl1 : loaded id [line] 1 s1) by (eapply loaded_at, Hl0).
  rewrite Hexp; [|apply rel_reads, Hr1|reflexivity].
  unfold bind at 1. rewrite indent_id by (apply unindent_dollar; reflexivity).
  assert (Hfo : follows id [line] s1 (line_F E (level E (S m)) id (S2L "$define " ++ name ++ BLANK :: v) s1)
    (returns false (S2L "define") (shave (name ++ BLANK :: v)) 0 1 (with_macro name (Some (shave v)) (with_args [] c)))).
  { change (S2L "$define " ++ name ++ BLANK :: v) with (chr 36 :: [] ++ S2L "define" ++ BLANK :: name ++ BLANK :: v).
    apply (line_command E (level E (S m)) id [line] 1 s1 (set_macros (put (r_macros s1) name (shave v)) s1)
      (with_macro name (Some (shave v)) (with_args [] c)) (S2L "define") (BLANK :: name ++ BLANK :: v)
      (shave (name ++ BLANK :: v)) true 0 false).
    - reflexivity.
    - cbn; lia.
    - apply splitline_word; [reflexivity|cbn; lia|apply ident_len_21; assumption].
    - change (f_exec (level E (S m))) with (exec_F E (level E m)).
      change (exec_F E (level E m) (S2L "define") ?a ?b) with (@define W a). apply define_ok; assumption.
    - apply (rel_macros s1 (with_args [] c) _ _ Hr1). intros k. rewrite lookup_put, (rl_macro s1 _ Hr1). reflexivity.
    - exact Hl1.
    - constructor; reflexivity. }
  destruct Hfo as (s2 & Hline & Hr2 & Hl2 & Hf2). unfold bind at 1. rewrite Hline.
  change (f_loop (level E (S m)) id s2) with (loop_F E (level E m) id s2). unfold loop_F, bind at 1.
  rewrite (read_raw_end id [line] 1 s2 Hl2 eq_refl). unfold ret. cbv zeta.
  assert (Hd2 : r_depth s2 = r_depth s + 1) by (rewrite (fr_depth _ _ _ Hf2); reflexivity).
  cbn [r_depth set_args set_depth set_files set_cur add_event r_files r_next].
  rewrite Hd2. replace (r_depth s + 1 - 1 =? 0) with false by lia.
  eexists. split; [reflexivity|]. destruct Hf2, Hl2 as (Hl2a & Hl2b & Hl2c). split.
  - destruct Hr, Hr2. constructor; cbn in *; auto; try congruence.
  - assert (HF : file_del (r_files s2) id = r_files s).
    { rewrite fr_files. unfold s1, at_. cbn [r_files set_files]. rewrite file_del_set. unfold s0, sub.
      cbn [r_files set_files set_cur]. rewrite file_del_set. apply file_del_fresh, Hnum. }
    constructor; cbn [r_indent r_multi r_nopar r_print r_vseps r_rptstr r_procs r_depth r_argv r_cur r_files r_next set_args set_depth set_files set_cur add_event];
      try (first [rewrite fr_indent|rewrite fr_multi|rewrite fr_nopar|rewrite fr_print|rewrite fr_vseps|rewrite fr_rptstr|rewrite fr_procs]; reflexivity); auto.
    + lia.
    + assert (file_get (r_files s2) id <> None) by congruence.
      pose proof (loaded_id id [line] 1 s2 (conj Hl2a (conj Hl2b Hl2c))). unfold id in *. lia.
Qed.

(** The conditions on the names. *)
Lemma index_ident i : index_ok i = true -> ident i = true.
Proof. unfold index_ok. rewrite !andb_true_iff. tauto. Qed.
Lemma index_len i : index_ok i = true -> (1 <= length i <= 11)%nat.
Proof. intros H. pose proof (ident_len i (index_ident i H)). unfold index_ok in H. rewrite !andb_true_iff in H. destruct H as [_ H]. apply Nat.leb_le in H. lia. Qed.
Lemma word_alnum w : word w = true -> forallb (fun d => isalpha d || isdigit d || (code d =? 95)) w = true.
Proof. unfold word. rewrite andb_true_iff. tauto. Qed.
Lemma left_word i : index_ok i = true -> word (left_name i) = true.
Proof.
  intros H. unfold left_name, word. rewrite forallb_app. pose proof (word_alnum i (index_word i H)) as ->. reflexivity.
Qed.
Lemma left_ident i : index_ok i = true -> ident (left_name i) = true.
Proof.
  intros H. pose proof (index_len i H) as Hl. pose proof (word_alnum i (index_word i H)) as Hw.
  unfold left_name, ident. change (S2L "FOREACH__" ++ i) with (chr 70 :: S2L "OREACH__" ++ i).
  cbv iota beta. rewrite forallb_app.
  replace (forallb (fun d => isalpha d || isdigit d || (code d =? 95) || (code d =? 35)) i) with true.
  - rewrite app_length. replace (Nat.leb (length (S2L "OREACH__") + length i) 19) with true; [reflexivity|].
    symmetry. apply Nat.leb_le. cbn [length S2L list_ascii_of_string]. cbn; lia.
  - symmetry. rewrite forallb_forall in *. intros c Hc. rewrite (Hw c Hc). reflexivity.
Qed.
Lemma kept_ident i : index_ok i = true -> ident (kept_name i) = true.
Proof.
  intros H. pose proof (index_len i H) as Hl. pose proof (index_ident i H) as Hi. unfold kept_name.
  destruct i as [|c r]; [discriminate|]. cbn [ident app] in *. rewrite !andb_true_iff in Hi. destruct Hi as [[H1 H2] _].
  rewrite H1, forallb_app, H2. cbn [andb]. rewrite app_length. cbn [length] in Hl. cbn. lia.
Qed.

Lemma str_neq_len (a b : str) : length a <> length b -> str_eqb a b = false.
Proof. intros H. destruct (str_eqb a b) eqn:He; [|reflexivity]. apply str_eqb_iff in He. congruence. Qed.
Lemma left_len i : length (left_name i) = (9 + length i)%nat.
Proof. reflexivity. Qed.
Lemma kept_len i : length (kept_name i) = (length i + 2)%nat.
Proof. unfold kept_name. rewrite app_length. reflexivity. Qed.

(** * Copies of a macro *)
Lemma lookup_none l k : lookup l k = None -> forall v, ~ In (k, v) l.
Proof.
  induction l as [|[a b] l IH]; intros H v Hin; [contradiction|]. cbn [lookup] in H.
  destruct (str_eqb a k) eqn:He; [discriminate|]. destruct Hin as [Hin|Hin]; [|eapply IH; eauto].
  injection Hin as <- _. rewrite str_eqb_refl in He. discriminate.
Qed.
Lemma starts_split p k : starts p k = true -> exists t, k = p ++ t.
Proof.
  revert k. induction p as [|c p IH]; intros k H; [exists k; reflexivity|].
  destruct k as [|d k]; cbn [starts] in H; [discriminate|]. apply andb_true_iff in H as [Hc H].
  apply Ascii.eqb_eq in Hc. subst d. destruct (IH k H) as [t ->]. exists t. reflexivity.
Qed.
Lemma depth_none l p m : (forall t, lookup l (p ++ t) = None) -> depth_in l p m = Some m.
Proof.
  intros H. assert (H2 : forall t v, ~ In (p ++ t, v) l) by (intros t v; apply lookup_none, H). clear H.
  revert m. induction l as [|[k v] l IH]; intros m; [reflexivity|]. cbn [depth_in].
  destruct (starts p k) eqn:Hs.
  - destruct (starts_split p k Hs) as [t ->]. exfalso. apply (H2 t v). left. reflexivity.
  - apply IH. intros t u Hin. apply (H2 t u). right. exact Hin.
Qed.
Lemma depth_zero l p : (forall t, t <> [chr 48] -> lookup l (p ++ t) = None) ->
  depth_in l p (-1) = Some (match lookup l (p ++ [chr 48]) with Some _ => 0 | None => -1 end).
Proof.
  intros H. assert (H2 : forall t v, t <> [chr 48] -> ~ In (p ++ t, v) l) by (intros t v Ht; apply lookup_none, H, Ht). clear H.
  assert (Hmax : forall m, (m = -1 \/ m = 0) -> depth_in l p m =
    Some (match lookup l (p ++ [chr 48]) with Some _ => 0 | None => m end)).
  { induction l as [|[k v] l IH]; intros m Hm; [reflexivity|]. cbn [depth_in lookup].
    assert (IH' : forall m, m = -1 \/ m = 0 -> depth_in l p m = Some (match lookup l (p ++ [chr 48]) with Some _ => 0 | None => m end)).
    { apply IH. intros t u Ht Hin. apply (H2 t u Ht). right. exact Hin. }
    destruct (starts p k) eqn:Hs.
    - destruct (starts_split p k Hs) as [t ->].
      destruct (list_eq_dec Ascii.ascii_dec t [chr 48]) as [->|Ht].
      + rewrite str_eqb_refl. rewrite skipn_app, skipn_all, Nat.sub_diag. cbn [app skipn].
        change (atoi [chr 48]) with (Some 0). cbv iota. rewrite IH' by lia. replace (Z.max m 0) with 0 by lia.
        destruct (lookup l (p ++ [chr 48])); reflexivity.
      + exfalso. apply (H2 t v Ht). left. reflexivity.
    - assert (str_eqb k (p ++ [chr 48]) = false) as ->.
      { destruct (str_eqb k (p ++ [chr 48])) eqn:He; [|reflexivity]. apply str_eqb_iff in He. subst k.
        assert (starts p (p ++ [chr 48]) = true); [|congruence].
        clear. induction p as [|c p IH]; [reflexivity|]. cbn. rewrite Ascii.eqb_refl. exact IH. }
      apply IH'. exact Hm. }
  apply Hmax. left. reflexivity.
Qed.

Lemma macro_ident (s : rep) n : ident n = true -> macro s n = lookup (r_macros s) n.
Proof. intros H. unfold macro. rewrite key_ident by exact H. reflexivity. Qed.
Lemma define_1_ident n v (s : rep) : ident n = true -> define_1 n v s = Done 0 (set_macros (put (r_macros s) n v) s).
Proof. intros H. unfold define_1. rewrite key_ident, check_ident by exact H. reflexivity. Qed.
Lemma undef_1_ident n (s : rep) (c : conf) : ident n = true -> rel s c ->
  exists rc s', undef_1 n s = Done rc s' /\ rel s' (with_macro n None c) /\ inside s s'.
Proof.
  intros Hn Hr. unfold undef_1. rewrite macro_ident, key_ident by exact Hn.
  destruct (lookup (r_macros s) n) as [v|] eqn:Hl.
  - eexists 1, _. split; [reflexivity|]. split; [|apply inside_macros].
    apply (rel_macros s c _ _ Hr). intros k. rewrite lookup_remove, (rl_macro s c Hr). reflexivity.
  - exists 0, s. split; [reflexivity|]. split; [|apply inside_refl].
    destruct Hr. constructor; cbn; auto. intros k. destruct (str_eqb n k) eqn:He; [|auto].
    apply str_eqb_iff in He. subst k. exact Hl.
Qed.

(** Two configurations with the same macros. *)
Lemma rel_same (s : rep) (c c' : conf) : rel s c -> (forall k, c_macro c k = c_macro c' k) ->
  c_args c = c_args c' -> c_policy c = c_policy c' -> c_show c = c_show c' -> c_quotes c = c_quotes c' ->
  c_out c = c_out c' -> c_world c = c_world c' -> rel s c'.
Proof. intros [] H1 H2 H3 H4 H5 H6 H7. constructor; try congruence. Qed.

Lemma save_ok i (s : rep) (c : conf) : index_ok i = true -> rel s c -> no_copy c i ->
  exists s', save i s = Done 0 s' /\ rel s' (keep i c) /\ inside s s'.
Proof.
  intros Hi Hr Hc. pose proof (index_ident i Hi) as Hid. unfold save. rewrite macro_ident by exact Hid.
  unfold keep. rewrite <- (rl_macro s c Hr). destruct (lookup (r_macros s) i) as [v|].
  - unfold bind, calcdepth. pose proof (index_len i Hi). replace (Nat.ltb 1022 (length i)) with false by lia.
    rewrite depth_none.
    2:{ intros t. rewrite (rl_macro s c Hr), <- app_assoc. apply Hc. }
    change (saved_name i (-1 + 1)) with (kept_name i). rewrite define_1_ident by (apply kept_ident, Hi).
    eexists _. split; [reflexivity|]. split; [|apply inside_macros].
    apply (rel_macros s c _ _ Hr). intros k. rewrite lookup_put, (rl_macro s c Hr). reflexivity.
  - exists s. split; [reflexivity|]. split; [exact Hr|apply inside_refl].
Qed.
Lemma save_none n (s : rep) (c : conf) : ident n = true -> rel s c -> c_macro c n = None -> save n s = Done 0 s.
Proof. intros Hn Hr H. unfold save. rewrite macro_ident, (rl_macro s c Hr), H by exact Hn. reflexivity. Qed.
Lemma restore_ok i o (s : rep) (c : conf) : index_ok i = true -> rel s c -> one_copy c i o ->
  exists s', restore i s = Done 0 s' /\ rel s' (with_macro (kept_name i) None (with_macro i o c)) /\ inside s s'.
Proof.
  intros Hi Hr [Hk Ho]. pose proof (index_ident i Hi) as Hid. pose proof (index_len i Hi) as Hlen.
  unfold restore, bind at 1.
  destruct (undef_1_ident i s c Hid Hr) as (rc1 & s1 & -> & Hr1 & Hi1).
  unfold bind at 1, calcdepth. replace (Nat.ltb 1022 (length i)) with false by lia.
  assert (Hne : forall t, str_eqb i (i ++ SHARP :: t) = false).
  { intros t. apply str_neq_len. rewrite app_length. cbn [length]. lia. }
  assert (Hkn : forall k, str_eqb i k = true -> str_eqb (kept_name i) k = false).
  { intros k H. apply str_eqb_iff in H. subst k. apply str_neq_len. rewrite kept_len. lia. }
  rewrite depth_zero.
  2:{ intros t Ht. rewrite (rl_macro s1 _ Hr1), <- app_assoc. cbn [c_macro with_macro app]. rewrite Hne. apply Ho, Ht. }
  rewrite <- app_assoc. change ([SHARP] ++ [chr 48]) with (S2L "#0"). fold (kept_name i).
  assert (Hl1 : lookup (r_macros s1) (kept_name i) = o).
  { rewrite (rl_macro s1 _ Hr1). cbn [c_macro with_macro]. replace (str_eqb i (kept_name i)) with false; [exact Hk|].
    symmetry. apply (Hne [chr 48]). }
  rewrite Hl1. destruct o as [v|].
  - cbn [Z.ltb Z.compare]. unfold bind at 1, get. change (saved_name i 0) with (kept_name i).
    rewrite (macro_ident s1 (kept_name i)) by (apply kept_ident, Hi). rewrite Hl1.
    unfold bind at 1. rewrite define_1_ident by exact Hid. unfold bind at 1.
    set (s2 := set_macros _ s1).
    assert (Hr2 : rel s2 (with_macro i (Some v) c)).
    { eapply rel_same; [apply (rel_macros s1 _ _ (fun k => if str_eqb i k then Some v else c_macro (with_macro i None c) k) Hr1)| | | | | | |]; try reflexivity.
      - intros k. rewrite lookup_put, (rl_macro s1 _ Hr1). reflexivity.
      - intros k. cbn [c_macro with_macro]. destruct (str_eqb i k); reflexivity. }
    destruct (undef_1_ident (kept_name i) s2 _ (kept_ident i Hi) Hr2) as (rc3 & s3 & -> & Hr3 & Hi3).
    exists s3. split; [reflexivity|]. split; [exact Hr3|].
    eapply inside_trans; [exact Hi1|]. eapply inside_trans; [apply inside_macros|exact Hi3].
  - cbn [Z.ltb Z.compare]. exists s1. split; [reflexivity|]. split; [|exact Hi1].
    eapply rel_same; [exact Hr1| | | | | | |]; try reflexivity.
    intros k. cbn [c_macro with_macro]. destruct (str_eqb (kept_name i) k) eqn:H; [|reflexivity].
    apply str_eqb_iff in H. subst k. replace (str_eqb i (kept_name i)) with false; [exact Hk|].
    symmetry. apply (Hne [chr 48]).
Qed.
Lemma restore_none n (s : rep) (c : conf) : ident n = true -> rel s c -> no_copy c n ->
  exists s', restore n s = Done 0 s' /\ rel s' (with_macro n None c) /\ inside s s'.
Proof.
  intros Hn Hr Hc. pose proof (ident_len n Hn) as Hlen. unfold restore, bind at 1.
  destruct (undef_1_ident n s c Hn Hr) as (rc1 & s1 & -> & Hr1 & Hi1).
  unfold bind at 1, calcdepth. replace (Nat.ltb 1022 (length n)) with false by lia.
  rewrite depth_none.
  2:{ intros t. rewrite (rl_macro s1 _ Hr1), <- app_assoc. cbn [c_macro with_macro].
      rewrite str_neq_len by (rewrite !app_length; cbn [length]; lia). apply Hc. }
  exists s1. split; [reflexivity|]. split; [exact Hr1|exact Hi1].
Qed.
End Loops.
