(** Lemmas: the definitions of procedures; a report that defines and calls procedures. *)
From Coq Require Import ZArith Ascii String List Bool Lia ZifyBool.
From Verif Require Import M_Base M_Names M_Lex M_Kdb M_Grep M_Report S_Report S_Report2 S_Names L_Names L_Kdb L_Time L_Report L_Report2 L_Report3 L_Report4 L_Report5 L_Report6 L_Report7 L_Report8 L_Report9.
Import ListNotations.
Open Scope Z_scope.

Section Defs.
Context {W : Type} (E : env W).
Notation rep := (rep W).
Notation conf := (conf W).

(** * The line *)
Lemma blank_inked w fs : inked w = true -> w <> [] -> forallb word fs = true ->
  rstrip (w ++ flat_map (cons BLANK) fs) = w ++ flat_map (cons BLANK) fs.
Proof.
  intros Hw Hne Hf. revert w Hw Hne. induction fs as [|f fs IH]; intros w Hw Hne.
  - cbn [flat_map]. rewrite app_nil_r. apply rstrip_inked, Hw.
  - cbn [forallb] in Hf. apply andb_true_iff in Hf as [Hf Hfs]. cbn [flat_map].
    specialize (IH Hfs f (word_inked f Hf) (word_ne f Hf)).
    rewrite rstrip_app. change ((BLANK :: f) ++ flat_map (cons BLANK) fs) with ([BLANK] ++ (f ++ flat_map (cons BLANK) fs)).
    rewrite rstrip_app, IH. pose proof (word_ne f Hf). destruct f as [|d f]; [congruence|]. reflexivity.
Qed.
Lemma blank_shave w fs : inked w = true -> w <> [] -> forallb word fs = true ->
  shave (w ++ flat_map (cons BLANK) fs) = w ++ flat_map (cons BLANK) fs.
Proof. intros Hw Hne Hf. rewrite shave_eq, unblank_inked by assumption. apply blank_inked; assumption. Qed.
Lemma blank_joined f fs : f ++ flat_map (cons BLANK) fs = joined BLANK (f :: fs).
Proof.
  revert f. induction fs as [|g fs IH]; intros f; [apply app_nil_r|]. change (joined BLANK (f :: g :: fs)) with (f ++ BLANK :: joined BLANK (g :: fs)).
  rewrite <- IH. reflexivity.
Qed.
Lemma blank_printable w fs : inked w = true -> forallb word fs = true -> printable (w ++ flat_map (cons BLANK) fs) = true.
Proof.
  intros Hw Hf. apply printable_app. split; [apply inked_printable, Hw|]. clear Hw w.
  induction fs as [|f fs IH]; [reflexivity|]. cbn [forallb] in Hf. apply andb_true_iff in Hf as [Hf Hfs].
  cbn [flat_map]. apply printable_app. split; [|apply IH, Hfs]. apply printable_cons. split; [cbn; lia|apply inked_printable, word_inked, Hf].
Qed.
Lemma words_clean fs : forallb word fs = true -> forallb (clean (mem [BLANK])) fs = true.
Proof.
  rewrite !forallb_forall. intros H f Hf. specialize (H f Hf). unfold clean. pose proof (word_ne f H).
  destruct f as [|d f']; [congruence|]. cbn [nonempty andb].
  pose proof (word_without [32] (d :: f') H eq_refl) as Hwo. unfold without in Hwo.
  rewrite forallb_forall in *. intros x Hx. rewrite (mem_codes [32]) by (cbn; lia). apply (Hwo x Hx).
Qed.
Lemma split_proc name fs : word name = true -> (length name <= 30)%nat -> forallb word fs = true ->
  exists t room, splitline (name ++ flat_map (cons BLANK) fs) = Split name t room /\ vtoms [BLANK] t = fs.
Proof.
  intros Hw Hl Hf. destruct fs as [|f fs].
  - cbn [flat_map]. rewrite app_nil_r, splitline_alone by assumption. eexists _, _. split; [reflexivity|].
    rewrite vtoms_tokens. reflexivity.
  - cbn [flat_map]. change ((BLANK :: f) ++ flat_map (cons BLANK) fs) with (BLANK :: (f ++ flat_map (cons BLANK) fs)).
    pose proof Hf as Hf'. cbn [forallb] in Hf'. apply andb_true_iff in Hf' as [Hf1 Hf2].
    rewrite splitline_word; [|exact Hw|exact Hl|apply blank_printable; [apply word_inked, Hf1|exact Hf2]].
    eexists _, _. split; [reflexivity|].
    rewrite blank_shave; [|apply word_inked, Hf1|apply word_ne, Hf1|exact Hf2].
    rewrite blank_joined, vtoms_tokens. apply tokens_back; [reflexivity|]. apply words_clean, Hf.
Qed.

(** * $procend *)
Lemma is_procend_ends st : is_procend (line_of st) = ends_body st.
Proof. reflexivity. Qed.
Lemma to_procend_body body rest : forallb (fun st => negb (ends_body st)) body = true ->
  to_procend (map line_of (body ++ SProcEnd :: rest)) = Some (map line_of body).
Proof.
  induction body as [|st body IH]; intros H; [reflexivity|]. cbn [forallb] in H. apply andb_true_iff in H as [H1 H2].
  cbn [app map to_procend]. rewrite is_procend_ends. apply negb_true_iff in H1. rewrite H1, IH by exact H2. reflexivity.
Qed.

(** * The procedures of a state *)
Record settings (s s' : rep) : Prop := {
  sg_indent : r_indent s' = r_indent s;
  sg_multi : r_multi s' = r_multi s;
  sg_nopar : r_nopar s' = r_nopar s;
  sg_print : r_print s' = r_print s;
  sg_vseps : r_vseps s' = r_vseps s;
  sg_rptstr : r_rptstr s' = r_rptstr s;
  sg_depth : r_depth s' = r_depth s;
  sg_argv : r_argv s' = r_argv s
}.
Lemma settings_trans s1 s2 s3 : settings s1 s2 -> settings s2 s3 -> settings s1 s3.
Proof. intros [] []. constructor; congruence. Qed.
Lemma settings_refl s : settings s s.
Proof. constructor; reflexivity. Qed.
Lemma wide_settings Y s s' : wide Y s s' -> settings s s'.
Proof. intros []. constructor; auto. Qed.
Definition clear (id : nat) (s : rep) : Prop := forall p, In p (r_procs s) -> p_file p <> Some id.

Lemma file_get_set_other l id f j : j <> id -> file_get (file_set l id f) j = file_get l j.
Proof. intros H. unfold file_set. cbn [file_get]. replace (Nat.eqb id j) with false by lia. apply file_get_del, H. Qed.
Lemma find_filter {A} (f g : A -> bool) l : (forall x, In x l -> f x = true -> g x = true) -> List.find f (filter g l) = List.find f l.
Proof.
  induction l as [|x l IH]; intros H; [reflexivity|]. cbn [filter List.find].
  pose proof (H x (or_introl eq_refl)) as Hx. specialize (IH (fun y Hy => H y (or_intror Hy))).
  destruct (f x) eqn:Hfx.
  - rewrite Hx by reflexivity. cbn [List.find]. rewrite Hfx. reflexivity.
  - destruct (g x); [cbn [List.find]; rewrite Hfx|]; exact IH.
Qed.

Lemma delete_ok id lines pc (s : rep) (c : conf) D name :
  rel s c -> loaded id lines pc s -> proper s -> clear id s -> holds D s ->
  exists s1, proc_delete name s = Done tt s1 /\ rel s1 c /\ loaded id lines pc s1 /\ proper s1 /\ clear id s1 /\
    holds (fun k => if str_eqb name k then None else D k) s1 /\ settings s s1 /\ (r_next s <= r_next s1)%nat.
Proof.
  intros Hr Hl Hpr Hcl Hh. unfold proc_delete. destruct (proc_find (r_procs s) name) as [p|] eqn:Hp.
  2:{ exists s. split; [reflexivity|]. do 4 (split; [assumption|]). split; [|split; [apply settings_refl|lia]].
      intros k fs body Hk. destruct (str_eqb name k); [discriminate|]. apply Hh, Hk. }
  unfold proc_find in Hp. apply find_some in Hp as [Hin Hn]. apply str_eqb_iff in Hn.
  set (s1 := match p_file p with None => s | Some i => set_files (file_del (r_files s) i) (r_next s) s end).
  destruct Hpr as (Hp1 & Hp2 & Hp3).
  assert (Hkeep : forall q, In q (filter (fun q => negb (Nat.eqb (p_id q) (p_id p))) (r_procs s)) -> In q (r_procs s) /\ q <> p).
  { intros q Hq. apply filter_In in Hq as [Hq1 Hq2]. split; [exact Hq1|]. intros ->. rewrite Nat.eqb_refl in Hq2. discriminate. }
  assert (Hs1 : r_next s1 = r_next s /\ r_procs s1 = r_procs s /\ settings s s1 /\ (forall c, rel s c -> rel s1 c) /\ r_cur s1 = r_cur s /\
     forall j, p_file p <> Some j -> file_get (r_files s1) j = file_get (r_files s) j).
  { unfold s1. destruct (p_file p) as [i|].
    - split; [reflexivity|]. split; [reflexivity|]. split; [constructor; reflexivity|].
      split; [intros c0 []; constructor; assumption|]. split; [reflexivity|].
      intros j Hj. apply file_get_del. congruence.
    - split; [reflexivity|]. split; [reflexivity|]. split; [constructor; reflexivity|].
      split; [intros c0 []; constructor; assumption|]. split; [reflexivity|]. reflexivity. }
  destruct Hs1 as (Hnx & Hpc & Hsg & Hrl & Hcu & Hfg).
  eexists. split; [reflexivity|]. split; [|split; [|split; [|split; [|split; [|split]]]]].
  - destruct (Hrl c Hr). constructor; auto.
  - destruct Hl as (L1 & L2 & L3). split; [|split].
    + cbn. rewrite Hfg; [exact L1|]. apply Hcl, Hin.
    + cbn. rewrite Hcu. exact L2.
    + unfold numbered in *. cbn. rewrite Hnx. unfold s1. destruct (p_file p); [|exact L3].
      cbn. unfold file_del. rewrite Forall_forall in *. intros e He. apply filter_In in He. apply L3, He.
  - split; [|split].
    + cbn. intros q Hq. apply Hkeep in Hq as [Hq _]. rewrite Hnx. apply Hp1, Hq.
    + cbn. intros q q' Hq Hq'. apply Hkeep in Hq as [Hq _]. apply Hkeep in Hq' as [Hq' _]. apply Hp2; assumption.
    + cbn. intros q q' f Hq Hq'. apply Hkeep in Hq as [Hq _]. apply Hkeep in Hq' as [Hq' _]. apply Hp3; assumption.
  - intros q Hq. cbn in Hq. apply Hkeep in Hq as [Hq _]. apply Hcl, Hq.
  - intros k fs body Hk. destruct (str_eqb name k) eqn:Hnk; [discriminate|].
    destruct (Hh k fs body Hk) as (q & fid & pos & H1 & H2 & H3 & H4).
    exists q, fid, pos. cbn. split; [|split; [exact H2|split; [exact H3|]]].
    + rewrite <- H1. unfold proc_find. apply find_filter. intros x Hx Hxn. apply negb_true_iff. apply Nat.eqb_neq. intros He.
      apply Hp2 in He; [|exact Hx|exact Hin]. subst x. apply str_eqb_iff in Hxn. subst k. rewrite Hn, str_eqb_refl in Hnk. discriminate.
    + rewrite Hfg; [exact H4|]. intros He. unfold proc_find in H1. apply find_some in H1 as [Hq1 Hq2].
      assert (q = p) by (eapply Hp3; eauto). subst q. apply str_eqb_iff in Hq2. subst k. rewrite Hn, str_eqb_refl in Hnk. discriminate.
  - destruct Hsg. constructor; auto.
  - cbn. lia.
Qed.

Lemma procdef_ok id lines pc (s : rep) (c : conf) D name fs body room :
  rel s c -> loaded id lines pc s -> proper s -> clear id s -> holds D s ->
  word name = true -> (length name <= 30)%nat -> forallb word fs = true ->
  to_procend (skipn pc lines) = Some (map line_of body) ->
  exists s', procdef (Arg (name ++ flat_map (cons BLANK) fs) room) s = Done 0 s' /\ rel s' c /\
    loaded id lines (pc + length body + 1) s' /\ proper s' /\ clear id s' /\
    holds (fun k => if str_eqb name k then Some (fs, body) else D k) s' /\ settings s s' /\ (r_next s <= r_next s')%nat.
Proof.
  intros Hr Hl Hpr Hcl Hh Hw Hlen Hf Hto. unfold procdef, with_text.
  destruct (split_proc name fs Hw Hlen Hf) as (t & rm & -> & Hfs).
  unfold bind at 1, current. rewrite (proj1 (proj2 Hl)).
  destruct (delete_ok id lines pc s c D name Hr Hl Hpr Hcl Hh) as (s1 & Hd & Hr1 & Hl1 & Hpr1 & Hcl1 & Hh1 & Hsg1 & Hn1).
  unfold bind at 1. rewrite Hd. unfold bind at 1, file_of at 1. rewrite (proj1 Hl1). cbn [rf_lines rf_pos]. rewrite Hto.
  unfold bind at 1. unfold bind at 1. rewrite map_length.
  rewrite (set_pos_at id _ (pc + length body + 1) s1 (proj1 Hl1)). cbn [rf_lines].
  set (s2 := at_ id _ s1). unfold bind at 1, new_file. unfold ret at 1. unfold bind at 1, get. unfold bind at 1, modify. unfold ret.
  assert (Hl2 : loaded id lines (pc + length body + 1) s2) by (eapply loaded_at, Hl1).
  pose proof (loaded_id id _ _ _ Hl1) as Hid.
  destruct Hpr1 as (P1 & P2 & P3).
  eexists. split; [reflexivity|]. split; [|split; [|split; [|split; [|split; [|split]]]]].
  - destruct Hr1. constructor; auto.
  - destruct Hl2 as (L1 & L2 & L3). split; [|split; [exact L2|]].
    + change (file_get (file_set (r_files s2) (r_next s2) {| rf_lines := map line_of body; rf_pos := 0 |}) id = Some {| rf_lines := lines; rf_pos := pc + length body + 1 |}).
      rewrite file_get_set_other; [exact L1|]. cbn. lia.
    + unfold numbered in *. cbn [r_files r_next set_procs set_files]. unfold file_set. constructor; [cbn; lia|].
      unfold file_del. rewrite Forall_forall in *. intros e He. apply filter_In in He as [He _]. specialize (L3 e He). cbn in *. lia.
  - split; [|split].
    + intros p [<-|Hp]; cbn in *.
      * split; [lia|]. intros f [= <-]. lia.
      * destruct (P1 p Hp) as [A B]. split; [lia|]. intros f Hff. specialize (B f Hff). lia.
    + intros p p' [<-|Hp] [<-|Hp']; cbn in *; intros He; auto.
      * destruct (P1 p' Hp') as [A _]. lia.
      * destruct (P1 p Hp) as [A _]. lia.
    + intros p p' f [<-|Hp] [<-|Hp']; cbn in *; intros He He'; auto.
      * injection He as <-. destruct (P1 p' Hp') as [_ B]. specialize (B _ He'). lia.
      * injection He' as <-. destruct (P1 p Hp) as [_ B]. specialize (B _ He). lia.
      * eapply P3; eauto.
  - intros p [<-|Hp]; cbn.
    + intros [= He]. cbn in Hid. lia.
    + apply Hcl1, Hp.
  - intros k fs' body' Hk. destruct (str_eqb name k) eqn:Hnk.
    + injection Hk as <- <-. eexists _, (r_next s1), O. split; [|split; [|split]].
      * cbn. rewrite Hnk. reflexivity.
      * exact Hfs.
      * reflexivity.
      * apply file_get_set.
    + destruct (Hh1 k fs' body') as (q & fid & pos & H1 & H2 & H3 & H4); [rewrite Hnk; exact Hk|].
      exists q, fid, pos. split; [|split; [exact H2|split; [exact H3|]]].
      * unfold proc_find in *. cbn [r_procs set_procs List.find p_name]. rewrite Hnk. exact H1.
      * pose proof H1 as Hq. unfold proc_find in Hq. apply find_some in Hq as [Hq _]. destruct (P1 q Hq) as [_ B]. specialize (B _ H3).
        change (file_get (file_set (file_set (r_files s1) id {| rf_lines := lines; rf_pos := pc + length body + 1 |}) (r_next s1) {| rf_lines := map line_of body; rf_pos := 0 |}) fid = Some {| rf_lines := map line_of body'; rf_pos := pos |}).
        rewrite !file_get_set_other; [exact H4| |lia]. intros ->. apply (Hcl1 q Hq). exact H3.
  - destruct Hsg1. constructor; auto.
  - cbn. lia.
Qed.

(** * The definitions at the beginning of a report *)
Lemma index_words fs : forallb index_ok fs = true -> forallb word fs = true.
Proof. rewrite !forallb_forall. intros H f Hf. apply index_word, H, Hf. Qed.
Lemma proc_line_without name fs : word name = true -> forallb word fs = true ->
  without [37; 123; 64; 96] (S2L "$procdef " ++ name ++ flat_map (cons BLANK) fs) = true.
Proof.
  intros Hw Hf. rewrite !without_app. rewrite (word_without [37; 123; 64; 96] name Hw eq_refl).
  assert (Hff : without [37; 123; 64; 96] (flat_map (cons BLANK) fs) = true); [|rewrite Hff; reflexivity].
  induction fs as [|f fs IH]; [reflexivity|]. cbn [forallb] in Hf. apply andb_true_iff in Hf as [Hf Hfs].
  cbn [flat_map]. rewrite without_app. rewrite IH by exact Hfs.
  change (BLANK :: f) with ([BLANK] ++ f). rewrite without_app, (word_without [37; 123; 64; 96] f Hf eq_refl). reflexivity.
Qed.
Lemma def_line id pre rest (d : definition) (s : rep) (c : conf) D :
  forallb stmt_ok (pre ++ def_lines d ++ rest) = true -> good_def d = true ->
  rel s c -> loaded id (map line_of (pre ++ def_lines d ++ rest)) (length pre) s -> proper s -> clear id s -> holds D s ->
  exists s', (forall m, f_loop (level E (S (S m))) id s = f_loop (level E (S m)) id s') /\ rel s' c /\
    loaded id (map line_of (pre ++ def_lines d ++ rest)) (length (pre ++ def_lines d)) s' /\
    proper s' /\ clear id s' /\ holds (defined D [d]) s' /\ settings s s' /\ (r_next s <= r_next s')%nat.
Proof.
  intros Hok Hgd Hr Hl Hpr Hcl Hh. destruct d as [[name fs] body]. set (prog := pre ++ _ ++ rest) in *.
  unfold good_def in Hgd. apply andb_true_iff in Hgd as [Hg1 Hg2]. cbn [def_lines] in Hg1.
  cbn [forallb] in Hg1. apply andb_true_iff in Hg1 as [Hst Hg1].
  pose proof Hst as Hs. unfold stmt_ok in Hs. apply andb_true_iff in Hs as [_ Hs]. apply andb_true_iff in Hs as [Hs Hfs].
  apply andb_true_iff in Hs as [Hw Hlen]. apply index_words in Hfs.
  assert (Hnth : nth_error prog (length pre) = Some (SProc name fs)).
  { unfold prog. rewrite nth_error_app2 by lia. rewrite Nat.sub_diag. reflexivity. }
  set (s1 := at_ id {| rf_lines := map line_of prog; rf_pos := S (length pre) |} s).
  assert (Hr1 : rel s1 c) by (apply rel_at, Hr).
  assert (Hl1 : loaded id (map line_of prog) (S (length pre)) s1) by (eapply loaded_at, Hl).
  assert (Hh1 : holds D s1).
  { intros k fs' body' Hk. destruct (Hh k fs' body' Hk) as (p & fid & q & H1 & H2 & H3 & H4). exists p, fid, q.
    split; [exact H1|]. split; [exact H2|]. split; [exact H3|]. unfold s1, at_. cbn [r_files set_files].
    rewrite file_get_set_other; [exact H4|]. intros ->. unfold proc_find in H1. apply find_some in H1 as [H1 _]. apply (Hcl p H1 H3). }
  destruct (procdef_ok id (map line_of prog) (S (length pre)) s1 c D name fs body true Hr1 Hl1) as (s2 & Hrun & Hr2 & Hl2 & Hpr2 & Hcl2 & Hh2 & Hsg2 & Hn2); auto.
  - lia.
  - rewrite skipn_map. unfold prog.
    replace (skipn (S (length pre)) (pre ++ def_lines (name, fs, body) ++ rest)) with (body ++ SProcEnd :: rest).
    + apply to_procend_body, Hg2.
    + rewrite skipn_app, skipn_all2 by lia. replace (S (length pre) - length pre)%nat with 1%nat by lia.
      cbn [def_lines app skipn]. rewrite <- app_assoc. reflexivity.
  - assert (Hp : forallb (piece_ok (reading_of E c)) (written (SProc name fs)) = true) by (apply lits_ok, proc_line_without; assumption).
    assert (Hval : value (reading_of E c) (written (SProc name fs)) = chr 36 :: [] ++ S2L "procdef" ++ BLANK :: name ++ flat_map (cons BLANK) fs).
    { cbn [written]. rewrite value_lits. reflexivity. }
    assert (Hline : line_F E (level E 1) id (value (reading_of E c) (written (SProc name fs))) s1 = Done None s2).
    { rewrite Hval. rewrite (line_after E (level E 1) id s1 s2 (S2L "procdef") (BLANK :: name ++ flat_map (cons BLANK) fs)
        (name ++ flat_map (cons BLANK) fs) true 0 false); [reflexivity|reflexivity|cbn; lia| | |apply Hl2].
      - rewrite splitline_word; [|reflexivity|cbn; lia|apply blank_printable; [apply word_inked, Hw|exact Hfs]].
        rewrite blank_shave; [reflexivity|apply word_inked, Hw|apply word_ne, Hw|exact Hfs].
      - change (f_exec (level E 1)) with (exec_F E (level E 0)). exact Hrun. }
    exists s2. split; [|split; [exact Hr2|split; [|split; [exact Hpr2|split; [exact Hcl2|split; [exact Hh2|split; [destruct Hsg2; constructor; assumption|exact Hn2]]]]]]].
    + intros m. apply (loop_line E id prog (length pre) s c (SProc name fs) 0 None s2 Hok Hr Hl Hnth Hp); [|exact Hline|lia].
      rewrite Hval. apply unindent_dollar. reflexivity.
    + replace (length (pre ++ def_lines (name, fs, body))) with (S (length pre) + length body + 1)%nat; [exact Hl2|].
      rewrite app_length. cbn [def_lines length]. rewrite app_length. cbn [length]. lia.
Qed.
Lemma defs_ok id ds : forall pre main (s : rep) (c : conf) D,
  forallb stmt_ok (pre ++ flat_map def_lines ds ++ main) = true -> forallb good_def ds = true ->
  rel s c -> loaded id (map line_of (pre ++ flat_map def_lines ds ++ main)) (length pre) s -> proper s -> clear id s -> holds D s ->
  exists s', (forall m, f_loop (level E (length ds + S m)) id s = f_loop (level E (S m)) id s') /\ rel s' c /\
    loaded id (map line_of (pre ++ flat_map def_lines ds ++ main)) (length (pre ++ flat_map def_lines ds)) s' /\
    proper s' /\ clear id s' /\ holds (defined D ds) s' /\ settings s s' /\ (r_next s <= r_next s')%nat.
Proof.
  induction ds as [|d ds IH]; intros pre main s c D Hok Hg Hr Hl Hpr Hcl Hh.
  - exists s. cbn [flat_map app] in *. rewrite app_nil_r. split; [reflexivity|]. do 5 (split; [assumption|]). split; [apply settings_refl|lia].
  - cbn [forallb] in Hg. apply andb_true_iff in Hg as [Hg Hgs].
    assert (He : pre ++ flat_map def_lines (d :: ds) ++ main = pre ++ def_lines d ++ (flat_map def_lines ds ++ main)).
    { cbn [flat_map]. rewrite <- app_assoc. reflexivity. }
    rewrite He in *.
    destruct (def_line id pre _ d s c D Hok Hg Hr Hl Hpr Hcl Hh) as (s1 & H1 & Hr1 & Hl1 & Hpr1 & Hcl1 & Hh1 & Hsg1 & Hn1).
    assert (He2 : pre ++ def_lines d ++ flat_map def_lines ds ++ main = (pre ++ def_lines d) ++ flat_map def_lines ds ++ main) by apply app_assoc.
    rewrite He2 in *.
    destruct (IH (pre ++ def_lines d) main s1 c _ Hok Hgs Hr1 Hl1 Hpr1 Hcl1 Hh1) as (s2 & H2 & Hr2 & Hl2 & Hpr2 & Hcl2 & Hh2 & Hsg2 & Hn2).
    exists s2. split; [|split; [exact Hr2|split; [|split; [exact Hpr2|split; [exact Hcl2|split; [|split; [eapply settings_trans; eauto|lia]]]]]]].
    + intros m. cbn [length plus]. replace (S (length ds + S m)) with (S (S (length ds + m))) by lia. rewrite H1.
      rewrite <- H2. f_equal. f_equal. lia.
    + cbn [flat_map]. rewrite (app_assoc pre (def_lines d) (flat_map def_lines ds)). exact Hl2.
    + destruct d as [[n fs] b]. exact Hh2.
Qed.

(** * Procedures of a state, for [runs_to_ok] *)
Definition file_no (s : rep) (name : str) : nat :=
  match proc_find (r_procs s) name with Some p => match p_file p with Some f => f | None => O end | None => O end.
Lemma holds_ready D (s : rep) : holds D s -> ready D (file_no s) s.
Proof.
  intros H name fs body Hd. destruct (H name fs body Hd) as (p & fid & q & H1 & H2 & H3 & H4).
  exists p, q. unfold file_no. rewrite H1, H3. auto.
Qed.
Lemma holds_apart D (s : rep) : holds D s -> proper s -> apart D (file_no s).
Proof.
  intros H (_ & _ & P3) a b Ha Hb Hf.
  destruct (D a) as [[fa ba]|] eqn:Hda; [|congruence]. destruct (D b) as [[fb bb]|] eqn:Hdb; [|congruence].
  destruct (H a _ _ Hda) as (p & fid & q & H1 & _ & H3 & _). destruct (H b _ _ Hdb) as (p' & fid' & q' & H1' & _ & H3' & _).
  unfold file_no in Hf. rewrite H1, H1', H3, H3' in Hf. subst fid'.
  unfold proc_find in *. apply find_some in H1 as [I1 N1]. apply find_some in H1' as [I2 N2].
  apply str_eqb_iff in N1. apply str_eqb_iff in N2. rewrite <- N1, <- N2. f_equal. eapply P3; eauto.
Qed.
Lemma holds_outer D (s : rep) id act : holds D s -> clear id s -> outer D (file_no s) act id.
Proof.
  intros H Hcl name Hd _ He. destruct (D name) as [[fs b]|] eqn:Hn; [|congruence].
  destruct (H name _ _ Hn) as (p & fid & q & H1 & _ & H3 & _). unfold file_no in He. rewrite H1, H3 in He. subst fid.
  unfold proc_find in H1. apply find_some in H1 as [H1 _]. apply (Hcl p H1 H3).
Qed.
Lemma ready_holds D F (s : rep) : ready D F s -> holds D s.
Proof. intros H name fs body Hd. destruct (H name fs body Hd) as (p & q & H1). exists p, (F name), q. exact H1. Qed.
Lemma good_defined ds : forall D : procs, good_procs D -> forallb good_def ds = true ->
  (forall n fs b, In (n, fs, b) ds -> NoDup fs) -> good_procs (defined D ds).
Proof.
  induction ds as [|[[n fs] b] ds IH]; intros D HD Hg Hnd; [exact HD|]. cbn [forallb] in Hg. apply andb_true_iff in Hg as [Hg Hgs].
  cbn [defined]. apply IH; [|exact Hgs|intros; eapply Hnd; right; eauto].
  intros name fs' body Hd. destruct (str_eqb n name); [|eapply HD, Hd]. injection Hd as <- <-.
  unfold good_def in Hg. apply andb_true_iff in Hg as [Hg _]. cbn [def_lines forallb] in Hg. apply andb_true_iff in Hg as [Hg1 Hg2].
  rewrite forallb_app in Hg2. apply andb_true_iff in Hg2 as [Hg2 _]. split; [exact Hg2|].
  unfold stmt_ok in Hg1. apply andb_true_iff in Hg1 as [_ Hg1]. apply andb_true_iff in Hg1 as [_ Hg1]. split; [exact Hg1|].
  eapply Hnd. left. reflexivity.
Qed.

Lemma left_settings (s s1 : rep) (c : conf) argv lines : rel s1 c -> settings (entered E s argv lines) s1 ->
  leaves (set_procs (r_procs (left_ s s1)) s) c (left_ s s1).
Proof.
  intros Hr Hf. destruct Hr, Hf.
  assert (Hd : r_depth s1 - 1 = r_depth s).
  { rewrite sg_depth0. unfold entered. cbn. lia. }
  unfold left_ in *. rewrite Hd in *. unfold entered in *.
  destruct (r_depth s =? 0) eqn:H0; constructor; cbn in *; try rewrite H0; cbn; auto; try congruence; try lia.
Qed.
End Defs.
