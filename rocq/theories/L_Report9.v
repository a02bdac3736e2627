(** Lemmas: the procedures of reports. *)
From Coq Require Import ZArith Ascii String List Bool Lia ZifyBool.
From Verif Require Import M_Base M_Names M_Lex M_Kdb M_Grep M_Report S_Report S_Report2 S_Names L_Names L_Kdb L_Time L_Report L_Report2 L_Report3 L_Report4 L_Report5 L_Report6 L_Report7 L_Report8.
Import ListNotations.
Open Scope Z_scope.

Section Procs.
Context {W : Type} (E : env W).
Notation rep := (rep W).
Notation conf := (conf W).

Lemma sharp_split f g t u : word f = true -> word g = true -> f ++ SHARP :: t = g ++ SHARP :: u -> f = g /\ t = u.
Proof.
  intros Hf Hg. apply word_alnum in Hf. apply word_alnum in Hg. revert g Hg.
  induction f as [|c f IH]; intros [|d g] Hg H; cbn [app forallb] in *.
  - injection H as ->. auto.
  - injection H as <- H. apply andb_true_iff in Hg as [Hg _]. discriminate.
  - injection H as -> H. apply andb_true_iff in Hf as [Hf _]. discriminate.
  - injection H as -> H. apply andb_true_iff in Hf as [_ Hf]. apply andb_true_iff in Hg as [_ Hg].
    destruct (IH Hf g Hg H) as [-> ->]. auto.
Qed.
Lemma kept_sharp f : kept_name f = f ++ SHARP :: [chr 48].
Proof. reflexivity. Qed.
Lemma kept_not_word f g : word g = true -> kept_name f <> g.
Proof. intros Hg H. pose proof (word_sharp g f [chr 48] Hg) as Hs. rewrite <- H in Hs. rewrite kept_sharp in Hs. cbn [app] in Hs. rewrite str_eqb_refl in Hs. discriminate. Qed.
Lemma copy_some fs k f : copy_of fs k = Some f -> In f fs /\ k = kept_name f.
Proof. intros H. apply find_some in H as [H1 H2]. apply str_eqb_iff in H2. auto. Qed.
Lemma copy_none fs k : copy_of fs k = None -> forall f, In f fs -> kept_name f <> k.
Proof. intros H f Hf He. pose proof (find_none _ _ H f Hf) as Hn. cbn in Hn. rewrite He, str_eqb_refl in Hn. discriminate. Qed.
Lemma keep_same f (c : conf) : c_args (keep f c) = c_args c /\ c_policy (keep f c) = c_policy c /\ c_show (keep f c) = c_show c /\
  c_quotes (keep f c) = c_quotes c /\ c_out (keep f c) = c_out c /\ c_world (keep f c) = c_world c.
Proof. unfold keep. destruct (c_macro c f); repeat split; reflexivity. Qed.

Definition kept (fs : list str) (c : conf) : conf :=
  with_macros (fun k => match copy_of fs k with Some f => c_macro c f | None => c_macro c k end) c.
Lemma save_list_ok fs : forall (s : rep) (c : conf), forallb index_ok fs = true -> NoDup fs -> rel s c ->
  (forall f, In f fs -> no_copy c f) ->
  exists s', save_list fs s = Done 0 s' /\ rel s' (kept fs c) /\ inside s s'.
Proof.
  induction fs as [|f fs IH]; intros s c Hi Hnd Hr Hc.
  - exists s. split; [reflexivity|]. split; [|apply inside_refl]. eapply rel_same; [exact Hr|..]; reflexivity.
  - cbn [forallb] in Hi. apply andb_true_iff in Hi as [Hf Hi]. inversion Hnd as [|? ? Hnin Hnd']; subst.
    assert (Hw : forall g, In g (f :: fs) -> word g = true).
    { intros g [<-|Hg]; [apply index_word, Hf|]. apply index_word. rewrite forallb_forall in Hi. auto. }
    change (save_list (f :: fs) s) with (bind (save f) (fun rc => if rc =? 0 then save_list fs else ret rc) s).
    destruct (save_ok f s c Hf Hr (Hc f (or_introl eq_refl))) as (s1 & H1 & Hr1 & Hi1).
    unfold bind at 1. rewrite H1. cbn [Z.eqb].
    destruct (IH s1 (keep f c) Hi Hnd' Hr1) as (s2 & H2 & Hr2 & Hi2).
    { intros g Hg t. rewrite keep_other; [apply Hc; right; exact Hg|]. intros He. rewrite kept_sharp in He.
      apply sharp_split in He as [He _]; [|apply Hw; right; exact Hg|apply Hw; left; reflexivity]. subst g. contradiction. }
    exists s2. split; [exact H2|]. split; [|eapply inside_trans; eauto].
    destruct (keep_same f c) as (E1 & E2 & E3 & E4 & E5 & E6).
    eapply rel_same; [exact Hr2|..]; cbn [kept with_macros c_macro c_args c_policy c_show c_quotes c_out c_world]; auto.
    intros k. unfold copy_of. cbn [List.find]. fold (copy_of fs k). destruct (str_eqb (kept_name f) k) eqn:Hk.
    + apply str_eqb_iff in Hk. subst k. destruct (copy_of fs (kept_name f)) as [g|] eqn:Hg.
      * apply copy_some in Hg as [Hg He]. rewrite !kept_sharp in He. apply sharp_split in He as [He _]; [|apply Hw; left; reflexivity|apply Hw; right; exact Hg].
        subst g. contradiction.
      * apply keep_kept, Hc. left. reflexivity.
    + destruct (copy_of fs k) as [g|] eqn:Hg.
      * apply copy_some in Hg as [Hg _]. apply keep_other. intros He. symmetry in He. apply kept_not_word in He; [exact He|apply Hw; right; exact Hg].
      * apply keep_other. intros ->. rewrite str_eqb_refl in Hk. discriminate.
Qed.

Lemma bound_not_in fs : forall vs k, ~ In k fs -> bound fs vs k = None.
Proof.
  induction fs as [|f fs IH]; intros [|v vs] k H; try reflexivity. cbn [bound].
  destruct (str_eqb f k) eqn:Hk; [apply str_eqb_iff in Hk; exfalso; apply H; left; exact Hk|]. apply IH. intros Hi. apply H. right. exact Hi.
Qed.
Lemma define_all_ok fs : forall vs (s : rep) (c : conf), forallb index_ok fs = true -> NoDup fs -> rel s c ->
  exists s', define_all (combine fs vs) s = Done 0 s' /\
    rel s' (with_macros (fun k => match bound fs vs k with Some v => Some v | None => c_macro c k end) c) /\ inside s s'.
Proof.
  induction fs as [|f fs IH]; intros vs s c Hi Hnd Hr.
  - exists s. split; [reflexivity|]. split; [|apply inside_refl]. eapply rel_same; [exact Hr|..]; reflexivity.
  - destruct vs as [|v vs].
    { exists s. split; [reflexivity|]. split; [|apply inside_refl]. eapply rel_same; [exact Hr|..]; reflexivity. }
    cbn [forallb] in Hi. apply andb_true_iff in Hi as [Hf Hi]. inversion Hnd as [|? ? Hnin Hnd']; subst.
    cbn [combine define_all]. unfold bind at 1. rewrite define_1_ident by (apply index_ident, Hf). cbn [Z.ltb Z.compare].
    set (s1 := set_macros _ s).
    assert (Hr1 : rel s1 (with_macro f (Some v) c)).
    { apply (rel_macros s c _ _ Hr). intros k. rewrite lookup_put, (rl_macro s _ Hr). reflexivity. }
    destruct (IH vs s1 _ Hi Hnd' Hr1) as (s2 & H2 & Hr2 & Hi2). exists s2. split; [exact H2|].
    split; [|eapply inside_trans; [apply inside_macros|exact Hi2]].
    eapply rel_same; [exact Hr2|..]; try reflexivity. intros k. cbn [c_macro with_macros with_macro bound].
    destruct (str_eqb f k) eqn:Hk; [|reflexivity]. apply str_eqb_iff in Hk. subst k. rewrite bound_not_in by exact Hnin. reflexivity.
Qed.

Lemma restore_list_ok fs : forall (s : rep) (c : conf) (o : str -> option str), forallb index_ok fs = true -> NoDup fs -> rel s c ->
  (forall f, In f fs -> one_copy c f (o f)) ->
  exists s', restore_list fs s = Done 0 s' /\
    rel s' (with_macros (fun k => if is_formal fs k then o k
                                  else match copy_of fs k with Some _ => None | None => c_macro c k end) c) /\ inside s s'.
Proof.
  induction fs as [|f fs IH]; intros s c o Hi Hnd Hr Hc.
  - exists s. split; [reflexivity|]. split; [|apply inside_refl]. eapply rel_same; [exact Hr|..]; reflexivity.
  - cbn [forallb] in Hi. apply andb_true_iff in Hi as [Hf Hi]. inversion Hnd as [|? ? Hnin Hnd']; subst.
    assert (Hw : forall g, In g (f :: fs) -> word g = true).
    { intros g [<-|Hg]; [apply index_word, Hf|]. apply index_word. rewrite forallb_forall in Hi. auto. }
    change (restore_list (f :: fs) s) with (bind (restore f) (fun rc => if rc =? 0 then restore_list fs else ret rc) s).
    destruct (restore_ok f (o f) s c Hf Hr (Hc f (or_introl eq_refl))) as (s1 & H1 & Hr1 & Hi1).
    unfold bind at 1. rewrite H1. cbn [Z.eqb].
    assert (Hother : forall g t, In g fs -> c_macro (with_macro (kept_name f) None (with_macro f (o f) c)) (g ++ SHARP :: t) = c_macro c (g ++ SHARP :: t)).
    { intros g t Hg. cbn [c_macro with_macro].
      destruct (str_eqb (kept_name f) (g ++ SHARP :: t)) eqn:He.
      { apply str_eqb_iff in He. rewrite kept_sharp in He. apply sharp_split in He as [He _]; [|apply Hw; left; reflexivity|apply Hw; right; exact Hg].
        subst g. contradiction. }
      change (g ++ SHARP :: t) with (g ++ [SHARP] ++ t). rewrite word_sharp by (apply Hw; left; reflexivity). reflexivity. }
    destruct (IH s1 _ o Hi Hnd' Hr1) as (s2 & H2 & Hr2 & Hi2).
    { intros g Hg. destruct (Hc g (or_intror Hg)) as [HA HB]. split.
      - rewrite (kept_sharp g), Hother by exact Hg. exact HA.
      - intros t Ht. cbn [app]. rewrite Hother by exact Hg. apply HB, Ht. }
    exists s2. split; [exact H2|]. split; [|eapply inside_trans; eauto].
    eapply rel_same; [exact Hr2|..]; try reflexivity.
    intros k. cbn [c_macro with_macros with_macro is_formal existsb]. fold (is_formal fs k).
    unfold copy_of. cbn [List.find]. fold (copy_of fs k).
    destruct (str_eqb f k) eqn:Hk.
    + apply str_eqb_iff in Hk. subst k. cbn [orb].
      destruct (is_formal fs f) eqn:Hff; [reflexivity|].
      destruct (copy_of fs f) as [g|] eqn:Hg.
      { apply copy_some in Hg as [_ Hg]. symmetry in Hg. apply kept_not_word in Hg; [destruct Hg|apply Hw; left; reflexivity]. }
      rewrite str_neq_len by (rewrite kept_len; lia). reflexivity.
    + cbn [orb]. destruct (is_formal fs k); [reflexivity|].
      destruct (str_eqb (kept_name f) k) eqn:Hk2; [|reflexivity].
      destruct (copy_of fs k); reflexivity.
Qed.

(** The words of a call. *)
Lemma unblank_words t : words (unblank t) = words t.
Proof.
  induction t as [|c t IH]; [reflexivity|]. cbn [unblank]. destruct (code c =? 32) eqn:Hc; [|reflexivity].
  rewrite IH. unfold words. cbn [tokens]. replace (among c [32; 44; 10; 9]) with true; [reflexivity|].
  symmetry. unfold among. cbn [existsb]. lia.
Qed.
Lemma rstrip_words t : words (rstrip t) = words t.
Proof.
  destruct (rstrip_split t) as [k Hk]. rewrite Hk at 2. generalize (rstrip t). intros u. unfold words.
  generalize (@nil ascii). induction u as [|c u IH]; intros w; cbn [app tokens].
  - induction k as [|k IHk]; [reflexivity|]. cbn [repeat tokens].
    change (among BLANK [32; 44; 10; 9]) with true. cbv iota.
    assert (Hnil : forall k, tokens (fun c => among c [32; 44; 10; 9]) (repeat BLANK k) [] = []) by (clear; induction k; cbn; auto).
    rewrite Hnil. reflexivity.
  - destruct (among c [32; 44; 10; 9]); [destruct (nonempty w); [f_equal|]; apply IH|apply IH].
Qed.
Lemma call_actuals v : without [34] v = true -> vtomsq B_SEPS (shave v) = words v.
Proof.
  intros Hq. rewrite vtomsq_tokens.
  - transitivity (words (shave v)); [|rewrite shave_eq, rstrip_words, unblank_words; reflexivity].
    unfold words. apply tokens_ext. intros c _. apply (mem_codes [32; 44; 10; 9]). cbn. lia.
  - rewrite shave_eq. unfold rstrip. apply without_rev, unblank_without, without_rev, unblank_without, Hq.
Qed.
Lemma bindings_ok fs acts : (fs = [] -> acts = []) -> bindings fs acts = Some (combine fs (values fs acts)).
Proof.
  intros H. unfold bindings, values. destruct (Nat.leb (length acts) (length fs)) eqn:Hl; [reflexivity|].
  destruct fs as [|f fs]; [rewrite H in Hl by reflexivity; discriminate|]. rewrite mtov_joined. reflexivity.
Qed.

Lemma file_get_del l id id' : id <> id' -> file_get (file_del l id') id = file_get l id.
Proof.
  intros H. unfold file_del. induction l as [|[i g] l IH]; [reflexivity|]. cbn [filter fst].
  destruct (Nat.eqb i id') eqn:H1; cbn [negb]; cbn [file_get].
  - rewrite IH. apply Nat.eqb_eq in H1. subst i. replace (Nat.eqb id' id) with false by lia. reflexivity.
  - rewrite IH. reflexivity.
Qed.

(** * What calls leave as it is *)
Record wide (Y : nat -> Prop) (s s' : rep) : Prop := {
  wd_indent : r_indent s' = r_indent s;
  wd_multi : r_multi s' = r_multi s;
  wd_nopar : r_nopar s' = r_nopar s;
  wd_print : r_print s' = r_print s;
  wd_vseps : r_vseps s' = r_vseps s;
  wd_rptstr : r_rptstr s' = r_rptstr s;
  wd_procs : r_procs s' = r_procs s;
  wd_depth : r_depth s' = r_depth s;
  wd_argv : r_argv s' = r_argv s;
  wd_next : (r_next s <= r_next s')%nat;
  wd_files : forall j, ~ Y j -> file_get (r_files s') j = file_get (r_files s) j;
  wd_lines : forall j, option_map (@rf_lines) (file_get (r_files s') j) = option_map rf_lines (file_get (r_files s) j)
}.
Lemma wide_trans (Y : nat -> Prop) s1 s2 s3 : wide Y s1 s2 -> wide Y s2 s3 -> wide Y s1 s3.
Proof.
  intros [] []. constructor; try congruence; [lia|].
  - intros j Hj. rewrite wd_files1, wd_files0 by exact Hj. reflexivity.
Qed.
Lemma wide_more (Y Z : nat -> Prop) s s' : (forall j, Y j -> Z j) -> wide Y s s' -> wide Z s s'.
Proof. intros H []. constructor; auto. Qed.
Lemma inside_wide Y s s' : inside s s' -> wide Y s s'.
Proof. intros []. constructor; auto; intros; congruence. Qed.
Lemma frame_get id s s' j : frame id s s' -> j <> id -> file_get (r_files s') j = file_get (@r_files W s) j.
Proof.
  intros Hf Hj. rewrite <- (file_get_del (r_files s') j id Hj), (fr_files _ _ _ Hf). apply file_get_del, Hj.
Qed.
Lemma frame_wide id lines p p' s s' : frame id s s' -> loaded id lines p s -> loaded id lines p' s' -> wide (fun j => j = id) s s'.
Proof.
  intros Hf Hl Hl'. destruct Hf as [H1 H2 H3 H4 H5 H6 H7 H8 H9 H10 H11] eqn:Hfe. constructor; auto.
  - intros j Hj. eapply frame_get; eauto.
  - intros j. destruct (Nat.eq_dec j id) as [->|Hj].
    + rewrite (proj1 Hl), (proj1 Hl'). reflexivity.
    + rewrite (frame_get id s s' j Hf Hj). reflexivity.
Qed.

(** * A call *)
Lemma split_short w v : word w = true -> (length w <= 30)%nat -> printable v = true ->
  exists room, splitline (shave (w ++ BLANK :: v)) = Split w (shave v) room.
Proof.
  intros Hw Hl Hv.
  rewrite shave_word by (try apply word_inked; try apply word_ne; exact Hw).
  destruct (rstrip v) as [|d u] eqn:Hr.
  - exists false. rewrite splitline_alone by (try exact Hw; lia). f_equal. rewrite <- shave_rstrip, Hr. reflexivity.
  - exists true. rewrite splitline_word; [|exact Hw|lia|].
    + rewrite <- Hr, shave_rstrip. reflexivity.
    + rewrite <- Hr. unfold rstrip. apply printable_rev, printable_unblank, printable_rev, Hv.
Qed.
Lemma procexec_ok (Y : nat -> Prop) id lines pc (s : rep) (c : conf) (p : proc) name fs fid prog q v room rc c2 :
  rel s c -> loaded id lines pc s ->
  proc_find (r_procs s) name = Some p -> p_parms p = fs -> p_file p = Some fid ->
  file_get (r_files s) fid = Some {| rf_lines := map line_of prog; rf_pos := q |} ->
  Y fid -> ~ Y id ->
  word name = true -> (length name <= 30)%nat -> printable v = true -> without [34] v = true ->
  forallb index_ok fs = true -> NoDup fs -> (forall f, In f fs -> no_copy c f) ->
  (fs = [] -> words v = []) ->
  (forall s4, rel s4 (called fs (values fs (words v)) c) -> loaded fid (map line_of prog) 0 s4 ->
     wide (fun j => j = fid) s s4 ->
     exists s6 n0, (forall n, (n0 <= n)%nat -> f_loop (level E n) fid s4 = Done rc s6) /\
       rel s6 c2 /\ numbered s6 /\ wide Y s4 s6) ->
  (forall f t, In f fs -> c_macro c2 (f ++ [SHARP] ++ t) = c_macro (called fs (values fs (words v)) c) (f ++ [SHARP] ++ t)) ->
  exists s' n0, (forall n, (n0 <= n)%nat -> procexec (level E n) (Arg (shave (name ++ BLANK :: v)) room) s = Done rc s') /\
    rel s' (returned fs c (out NL c2)) /\ loaded id lines pc s' /\ wide Y s s'.
Proof.
  intros Hr Hl Hp Hfs Hfid Hfile HYf HYi Hw Hlen Hpv Hq Hi Hnd Hnc Hfe Hbody Hcopies.
  assert (Hwords : forall f, In f fs -> word f = true).
  { intros f Hf. apply index_word. rewrite forallb_forall in Hi. auto. }
  destruct (save_list_ok fs s c Hi Hnd Hr Hnc) as (s1 & H1 & Hr1 & Hi1).
  destruct (define_all_ok fs (values fs (words v)) s1 _ Hi Hnd Hr1) as (s2 & H2 & Hr2 & Hi2).
  set (vs := values fs (words v)) in *.
  assert (Hrc : rel s2 (called fs vs c)) by exact Hr2.
  assert (Hin2 : inside s s2) by (eapply inside_trans; eauto).
  assert (Hfile2 : file_get (r_files s2) fid = Some {| rf_lines := map line_of prog; rf_pos := q |}) by (rewrite (in_files _ _ Hin2); exact Hfile).
  set (s3 := at_ fid {| rf_lines := map line_of prog; rf_pos := 0 |} s2).
  set (s4 := set_cur (Some fid) s3).
  assert (Hl2 : loaded id lines pc s2) by (eapply inside_loaded; eauto).
  assert (Hl4 : loaded fid (map line_of prog) 0 s4).
  { split; [apply file_get_set|]. split; [reflexivity|].
    pose proof (proj2 (proj2 Hl2)) as Hn. unfold numbered in *. cbn [s4 s3 at_ r_files r_next set_cur set_files].
    constructor; [|unfold file_del; rewrite Forall_forall in *; intros e He; apply filter_In in He; apply Hn, He].
    rewrite Forall_forall in Hn. apply (Hn _ (file_get_In _ _ _ Hfile2)). }
  assert (Hr4 : rel s4 (called fs vs c)) by (destruct Hrc; constructor; auto).
  assert (Hw24 : wide (fun j => j = fid) s2 s4).
  { unfold s4, s3. constructor; try reflexivity.
    - intros j Hj. apply (frame_get fid s2 _ j (frame_at fid _ s2) Hj).
    - intros j. destruct (Nat.eq_dec j fid) as [->|Hj].
      + change (r_files (set_cur (Some fid) (at_ fid {| rf_lines := map line_of prog; rf_pos := 0 |} s2))) with
          (file_set (r_files s2) fid {| rf_lines := map line_of prog; rf_pos := 0 |}).
        rewrite file_get_set, Hfile2. reflexivity.
      + f_equal. apply (frame_get fid s2 _ j (frame_at fid _ s2) Hj). }
  destruct (Hbody s4 Hr4 Hl4) as (s6 & n0 & H6 & Hr6 & Hn6 & Hw6).
  { eapply wide_trans; [apply inside_wide, Hin2|exact Hw24]. }
  set (s7 := set_cur (Some id) (add_event NL s6)).
  assert (Hr7 : rel s7 (out NL c2)).
  { destruct Hr6. constructor; cbn; auto. rewrite rl_out. reflexivity. }
  assert (Hone : forall f, In f fs -> one_copy (out NL c2) f (c_macro c f)).
  { intros f Hf. assert (Hb : forall t, bound fs vs (f ++ [SHARP] ++ t) = None).
    { intros t. apply bound_not_in. intros Hin. pose proof (word_sharp _ f t (Hwords _ Hin)) as Hsx. rewrite str_eqb_refl in Hsx. discriminate. }
    split.
    - cbn [c_macro out]. change (kept_name f) with (f ++ [SHARP] ++ [chr 48]). rewrite Hcopies by exact Hf.
      cbn [called with_macros c_macro]. rewrite Hb. destruct (copy_of fs (f ++ [SHARP] ++ [chr 48])) as [g|] eqn:Hg'.
      + apply copy_some in Hg' as [Hg1 Hg2]. rewrite kept_sharp in Hg2. cbn [app] in Hg2. apply sharp_split in Hg2 as [-> _]; [reflexivity|apply Hwords, Hf|apply Hwords, Hg1].
      + exfalso. apply (copy_none _ _ Hg' f Hf). reflexivity.
    - intros t Ht. cbn [c_macro out]. rewrite Hcopies by exact Hf. cbn [called with_macros c_macro]. rewrite Hb.
      destruct (copy_of fs (f ++ [SHARP] ++ t)) as [g|] eqn:Hg'.
      + apply copy_some in Hg' as [Hg1 Hg2]. rewrite kept_sharp in Hg2. cbn [app] in Hg2. apply sharp_split in Hg2 as [_ Hg2]; [contradiction|apply Hwords, Hf|apply Hwords, Hg1].
      + apply Hnc, Hf. }
  destruct (restore_list_ok fs s7 (out NL c2) (c_macro c) Hi Hnd Hr7 Hone) as (s8 & H8 & Hr8 & Hi8).
  assert (Hw27 : wide Y s2 s7).
  { eapply wide_trans; [eapply wide_more; [|exact Hw24]; intros j ->; exact HYf|].
    eapply wide_trans; [exact Hw6|]. constructor; intros; reflexivity. }
  assert (Hl7 : loaded id lines pc s7).
  { split; [|split; [reflexivity|]].
    - rewrite (wd_files _ _ _ Hw27 id HYi). exact (proj1 Hl2).
    - exact Hn6. }
  exists s8, n0. split; [|split; [exact Hr8|split]].
  - intros n Hn. unfold procexec, with_text. destruct (split_short name v Hw Hlen Hpv) as [rm ->].
    unfold bind at 1, get. rewrite Hp, Hfs. unfold bind at 1. rewrite H1. cbn [Z.ltb Z.compare].
    rewrite call_actuals by exact Hq. rewrite bindings_ok by exact Hfe. fold vs.
    unfold bind at 1. rewrite H2. cbn [Z.ltb Z.compare]. rewrite Hfid.
    unfold bind at 1. rewrite (set_pos_at fid _ 0 s2 Hfile2). cbn [rf_lines]. fold s3.
    unfold bind at 1, exec_tbl. unfold bind at 1, get. unfold bind at 1, modify. fold s4. unfold bind at 1.
    rewrite H6 by exact Hn.
    unfold bind at 1. change (r_cur s3) with (r_cur s2). rewrite (proj1 (proj2 Hl2)). fold NL. fold s7. unfold ret at 1. unfold bind at 1.
    assert (Hex : existsb (fun q => Nat.eqb (p_id q) (p_id p)) (r_procs s7) = true).
    { rewrite (wd_procs _ _ _ Hw27), (in_procs _ _ Hin2). unfold proc_find in Hp. apply find_some in Hp as [Hp _].
      apply existsb_exists. exists p. split; [exact Hp|apply Nat.eqb_refl]. }
    rewrite Hex. unfold bind. rewrite H8. reflexivity.
  - eapply inside_loaded; eauto.
  - eapply wide_trans; [apply inside_wide, Hin2|]. eapply wide_trans; [exact Hw27|apply inside_wide, Hi8].
Qed.

(** * Runs with calls *)
Section Runs.
Context (D : procs) (F : str -> nat).
Definition ready (s : rep) : Prop :=
  forall name fs body, D name = Some (fs, body) ->
  exists p q, proc_find (r_procs s) name = Some p /\ p_parms p = fs /\ p_file p = Some (F name) /\
    file_get (r_files s) (F name) = Some {| rf_lines := map line_of body; rf_pos := q |}.
Definition apart : Prop := forall a b, D a <> None -> D b <> None -> F a = F b -> a = b.
Definition touches (act : list str) (id : nat) (j : nat) : Prop :=
  j = id \/ exists name, D name <> None /\ ~ In name act /\ F name = j.
Definition outer (act : list str) (id : nat) : Prop :=
  forall name, D name <> None -> ~ In name act -> F name <> id.
Lemma ready_wide Y s s' : wide Y s s' -> ready s -> ready s'.
Proof.
  intros Hw H name fs body Hd. destruct (H name fs body Hd) as (p & q & H1 & H2 & H3 & H4).
  pose proof (wd_lines _ _ _ Hw (F name)) as Hl. rewrite H4 in Hl. cbn in Hl.
  destruct (file_get (r_files s') (F name)) as [[ls q']|] eqn:Hg; [|discriminate]. cbn in Hl. injection Hl as ->.
  exists p, q'. rewrite (wd_procs _ _ _ Hw). auto.
Qed.

Lemma wide_id id act s s' : wide (fun j => j = id) s s' -> wide (touches act id) s s'.
Proof. apply wide_more. intros j ->. left. reflexivity. Qed.
Lemma call_line act id prog pc (s : rep) (c : conf) name v fs body rc1 c1 :
  good_procs D -> apart -> forallb stmt_ok prog = true ->
  calls E prog pc c name v -> D name = Some (fs, body) -> ~ In name act -> (fs = [] -> words v = []) ->
  (forall f, In f fs -> no_copy c f) ->
  (forall id s, rel s (called fs (values fs (words v)) c) -> loaded id (map line_of body) 0 s ->
     r_vseps s = VSEPS -> 1 <= r_depth s -> ready s -> outer (name :: act) id ->
     exists s' n0, (forall n, (n0 <= n)%nat -> f_loop (level E n) id s = Done rc1 s') /\ rel s' c1 /\
       numbered s' /\ wide (touches (name :: act) id) s s') ->
  (forall f t, In f fs -> c_macro c1 (f ++ [SHARP] ++ t) = c_macro (called fs (values fs (words v)) c) (f ++ [SHARP] ++ t)) ->
  rel s c -> loaded id (map line_of prog) pc s ->
  r_vseps s = VSEPS -> 1 <= r_depth s -> ready s -> outer act id ->
  match returns false (S2L "procexec") (shave (name ++ BLANK :: v)) rc1 (S pc) (returned fs c (out NL c1)) with
  | Stuck => True
  | Next pc' c' => exists s' n0, (forall m, (n0 <= m)%nat -> f_loop (level E (S (S m))) id s = f_loop (level E (S m)) id s') /\
      rel s' c' /\ loaded id (map line_of prog) pc' s' /\ wide (touches act id) s s'
  | Stop rc c' => exists s' n0, (forall m, (n0 <= m)%nat -> f_loop (level E (S (S m))) id s = Done rc s') /\
      rel s' c' /\ numbered s' /\ wide (touches act id) s s'
  end.
Proof.
  intros HD Hap Hok (ps & Hn & Hp & Hv & Hpv & Hq) Hd Hact Hfe Hnc Hbody Hcop Hr Hl Hvs Hdep Hrd Hout.
  destruct (HD name fs body Hd) as (Hbok & Hfs & Hnd).
  assert (Hs : stmt_ok (SCall name ps) = true).
  { rewrite forallb_forall in Hok. apply Hok. eapply nth_error_In; eauto. }
  unfold stmt_ok in Hs. apply andb_true_iff in Hs as [_ Hs]. apply andb_true_iff in Hs as [Hw Hlen].
  set (s1 := at_ id {| rf_lines := map line_of prog; rf_pos := S pc |} s).
  assert (Hr1 : rel s1 c) by (apply rel_at, Hr).
  assert (Hl1 : loaded id (map line_of prog) (S pc) s1) by (eapply loaded_at, Hl).
  assert (Hw1 : wide (fun j => j = id) s s1) by (eapply frame_wide; [apply frame_at|exact Hl|exact Hl1]).
  pose proof (ready_wide _ _ _ Hw1 Hrd) as Hrd1.
  destruct (Hrd1 name fs body Hd) as (p & q & Hp1 & Hp2 & Hp3 & Hp4).
  assert (Hne : F name <> id) by (apply Hout; congruence).
  set (Y := touches (name :: act) (F name)).
  assert (HYi : ~ Y id).
  { intros [He|(n' & H1 & H2 & H3)]; [congruence|]. revert H3. apply Hout; [exact H1|]. intros Hin. apply H2. right. exact Hin. }
  destruct (procexec_ok Y id (map line_of prog) (S pc) s1 c p name fs (F name) body q v true rc1 c1) as (s2 & n0 & Hrun & Hr2 & Hl2 & Hw2); auto.
  - left. reflexivity.
  - lia.
  - intros s4 Hr4 Hl4 Hw4. apply Hbody; auto.
    + rewrite (wd_vseps _ _ _ Hw4). exact Hvs.
    + rewrite (wd_depth _ _ _ Hw4). exact Hdep.
    + eapply ready_wide; eauto.
    + intros n' H1 H2 H3. apply Hap in H3; [|exact H1|congruence]. apply H2. left. congruence.
  - assert (Hval : value (reading_of E c) (written (SCall name ps)) = chr 36 :: [] ++ S2L "procexec" ++ BLANK :: name ++ BLANK :: v).
    { cbn [written]. rewrite value_app, value_lits, <- Hv. rewrite <- !app_assoc. reflexivity. }
    assert (Hline : forall m, (n0 <= m)%nat ->
      line_F E (level E (S m)) id (value (reading_of E c) (written (SCall name ps))) s1 =
      after false (S2L "procexec") (shave (name ++ BLANK :: v)) rc1 s2).
    { intros m Hm. rewrite Hval. apply (line_after E (level E (S m)) id s1 s2 (S2L "procexec") (BLANK :: name ++ BLANK :: v)
        (shave (name ++ BLANK :: v)) true rc1 false); [reflexivity|cbn; lia| | |apply Hl2].
      - apply splitline_word; [reflexivity|cbn; lia|]. apply printable_app.
        split; [apply inked_printable, word_inked, Hw|apply printable_cons; split; [cbn; lia|exact Hpv]].
      - change (f_exec (level E (S m))) with (exec_F E (level E m)). apply Hrun, Hm. }
    pose proof (after_ok id (map line_of prog) (S pc) s2 s2 (returned fs c (out NL c1)) false (S2L "procexec") (shave (name ++ BLANK :: v)) rc1
      Hr2 Hl2 (frame_refl id s2)) as Haf.
    assert (Hwide : forall s3 p', loaded id (map line_of prog) p' s3 -> frame id s2 s3 -> wide (touches act id) s s3).
    { intros s3 p' Hl3 Hf3. eapply wide_trans; [apply wide_id, Hw1|]. eapply wide_trans.
      - eapply wide_more; [|exact Hw2]. intros j [->|(n' & H1 & H2 & H3)].
        + right. exists name. split; [congruence|auto].
        + right. exists n'. split; [exact H1|]. split; [|exact H3]. intros Hin. apply H2. right. exact Hin.
      - apply wide_id. eapply frame_wide; eauto. }
    assert (Hun : unindent (value (reading_of E c) (written (SCall name ps))) = value (reading_of E c) (written (SCall name ps))).
    { rewrite Hval. apply unindent_dollar. reflexivity. }
    destruct (returns false (S2L "procexec") _ rc1 (S pc) _) as [pc' c'|rc c'|] eqn:Hret; [| |exact I].
    + destruct Haf as (s3 & Ha & Hr3 & Hl3 & Hf3). exists s3, n0. split; [|split; [exact Hr3|split; [exact Hl3|eapply Hwide; eauto]]].
      intros m Hm. apply (loop_line E id prog pc s c (SCall name ps) n0 None s3 Hok Hr Hl Hn Hp Hun); [|exact Hm].
      rewrite <- Ha. apply Hline. lia.
    + destruct Haf as (s3 & Ha & Hr3 & (p' & Hl3) & Hf3). exists s3, n0. split; [|split; [exact Hr3|split; [apply Hl3|eapply Hwide; eauto]]].
      intros m Hm. apply (loop_line E id prog pc s c (SCall name ps) n0 (Some rc) s3 Hok Hr Hl Hn Hp Hun); [|exact Hm].
      rewrite <- Ha. apply Hline. lia.
Qed.

Lemma runs_to_ok : good_procs D -> apart -> forall act prog pc c rc c', runs_to E D act prog pc c rc c' ->
  forallb stmt_ok prog = true -> forall id s, rel s c -> loaded id (map line_of prog) pc s ->
  r_vseps s = VSEPS -> 1 <= r_depth s -> ready s -> outer act id ->
  exists s' n0, (forall n, (n0 <= n)%nat -> f_loop (level E n) id s = Done rc s') /\ rel s' c' /\
    numbered s' /\ wide (touches act id) s s'.
Proof.
  intros HD Hap act prog pc c rc c' H.
  induction H as [act prog pc c rc c' Hs|act prog pc c pc1 c1 rc c' Hm _ IH
    |act prog pc c name v fs body rc1 c1 pc2 c2 rc c' Hcall Hd Hact Hfe Hnc _ IHb Hcop Hret _ IH
    |act prog pc c name v fs body rc1 c1 rc c' Hcall Hd Hact Hfe Hnc _ IHb Hcop Hret];
    intros Hok id s Hr Hl Hv Hdep Hrd Hout.
  - pose proof (loop_step E id prog pc s c Hok Hr Hl) as H6. rewrite Hs in H6.
    destruct H6 as (s6 & H6 & Hr6 & (p' & Hl6) & Hf6). exists s6, 2%nat. split; [|split; [exact Hr6|split; [apply Hl6|]]].
    + intros n Hn. destruct n as [|[|n]]; try lia. apply H6.
    + apply wide_id. eapply frame_wide; eauto.
  - destruct (loop_moves E id prog pc s c pc1 c1 Hok Hr Hl Hv Hdep Hm) as (s1 & m0 & H1 & Hr1 & Hl1 & Hf1).
    assert (Hw1 : wide (fun j => j = id) s s1) by (eapply frame_wide; eauto).
    destruct (IH Hok id s1 Hr1 Hl1) as (s2 & n0 & H2 & Hr2 & Hn2 & Hw2); auto.
    + rewrite (wd_vseps _ _ _ Hw1). exact Hv.
    + rewrite (wd_depth _ _ _ Hw1). exact Hdep.
    + eapply ready_wide; eauto.
    + exists s2, (S (S (m0 + n0))). split; [|split; [exact Hr2|split; [exact Hn2|]]].
      * intros n Hn. destruct n as [|[|n]]; try lia. rewrite H1 by lia. apply H2. lia.
      * eapply wide_trans; [apply wide_id; exact Hw1|exact Hw2].
  - pose proof (call_line act id prog pc s c name v fs body rc1 c1 HD Hap Hok Hcall Hd Hact Hfe Hnc) as Hc.
    specialize (Hc (IHb (proj1 (HD _ _ _ Hd))) Hcop Hr Hl Hv Hdep Hrd Hout). rewrite Hret in Hc.
    destruct Hc as (s1 & m0 & H1 & Hr1 & Hl1 & Hw1).
    destruct (IH Hok id s1 Hr1 Hl1) as (s2 & n0 & H2 & Hr2 & Hn2 & Hw2); auto.
    + rewrite (wd_vseps _ _ _ Hw1). exact Hv.
    + rewrite (wd_depth _ _ _ Hw1). exact Hdep.
    + eapply ready_wide; eauto.
    + exists s2, (S (S (m0 + n0))). split; [|split; [exact Hr2|split; [exact Hn2|]]].
      * intros n Hn. destruct n as [|[|n]]; try lia. rewrite H1 by lia. apply H2. lia.
      * eapply wide_trans; [exact Hw1|exact Hw2].
  - pose proof (call_line act id prog pc s c name v fs body rc1 c1 HD Hap Hok Hcall Hd Hact Hfe Hnc) as Hc.
    specialize (Hc (IHb (proj1 (HD _ _ _ Hd))) Hcop Hr Hl Hv Hdep Hrd Hout). rewrite Hret in Hc.
    destruct Hc as (s1 & m0 & H1 & Hr1 & Hl1 & Hw1).
    exists s1, (S (S m0)). split; [|auto]. intros n Hn. destruct n as [|[|n]]; try lia. apply H1. lia.
Qed.
End Runs.
End Procs.
