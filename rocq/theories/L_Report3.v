(** Lemmas: the engine follows the description of S_Report. *)
From Coq Require Import ZArith Ascii String List Bool Lia ZifyBool.
From Verif Require Import M_Base M_Names M_Lex M_Kdb M_Grep M_Report S_Report S_Names L_Names L_Kdb L_Time L_Report L_Report2.
Import ListNotations.
Open Scope Z_scope.

(** * Texts *)

Definition rstrip (t : str) : str := rev (unblank (rev t)).

Lemma unblank_app a b : unblank (a ++ b) = match unblank a with [] => unblank b | u => u ++ b end.
Proof.
  induction a as [|c a IH]; [reflexivity|]. cbn [app unblank]. destruct (code c =? 32); [exact IH|reflexivity].
Qed.
Lemma rstrip_app a b : rstrip (a ++ b) = match rstrip b with [] => rstrip a | u => a ++ u end.
Proof.
  unfold rstrip. rewrite rev_app_distr, unblank_app.
  destruct (unblank (rev b)) as [|c u] eqn:H; [reflexivity|].
  rewrite rev_app_distr, rev_involutive. cbn [rev].
  destruct (rev u ++ [c]) eqn:H2; [destruct (rev u); discriminate|reflexivity].
Qed.
Lemma printable_cons c t : printable (c :: t) = true <-> 32 <= code c /\ printable t = true.
Proof. unfold printable. cbn [forallb]. rewrite andb_true_iff, Z.leb_le. tauto. Qed.
Lemma printable_app a b : printable (a ++ b) = true <-> printable a = true /\ printable b = true.
Proof. unfold printable. rewrite forallb_app, andb_true_iff. tauto. Qed.
Lemma printable_rev a : printable a = true -> printable (rev a) = true.
Proof.
  unfold printable. rewrite !forallb_forall. intros H c Hc. apply H, in_rev, Hc.
Qed.
Lemma isspace_printable c : 32 <= code c -> isspace c = (code c =? 32).
Proof. unfold isspace. intros H. lia. Qed.
Lemma drop_blanks_unblank t : printable t = true -> drop_blanks t = unblank t.
Proof.
  induction t as [|c t IH]; [reflexivity|]. rewrite printable_cons. intros [Hc Ht]. cbn [drop_blanks unblank].
  rewrite isspace_printable by exact Hc. rewrite IH by exact Ht. reflexivity.
Qed.
Lemma drop_low_unblank t : printable t = true -> drop_low t = unblank t.
Proof.
  induction t as [|c t IH]; [reflexivity|]. rewrite printable_cons. intros [Hc Ht]. cbn [drop_low unblank].
  replace (code c <=? 32) with (code c =? 32) by lia. rewrite IH by exact Ht. reflexivity.
Qed.
Lemma strip_rstrip t : printable t = true -> strip t = rstrip t.
Proof. intros H. unfold strip, rstrip. rewrite drop_low_unblank; [reflexivity|]. apply printable_rev, H. Qed.
Lemma rev_blanks k : rev (repeat BLANK k) = repeat BLANK k.
Proof. induction k as [|k IH]; [reflexivity|]. cbn [repeat rev]. rewrite IH. symmetry. apply repeat_cons. Qed.
Lemma rstrip_blanks k : rstrip (repeat BLANK k) = [].
Proof.
  unfold rstrip. rewrite rev_blanks.
  assert (unblank (repeat BLANK k) = []) as ->; [|reflexivity].
  induction k as [|k IH]; [reflexivity|]. cbn. exact IH.
Qed.
Lemma printable_blanks k : printable (repeat BLANK k) = true.
Proof. induction k as [|k IH]; [reflexivity|]. cbn. exact IH. Qed.
Lemma unblank_suffix t : exists k, t = repeat BLANK k ++ unblank t.
Proof.
  induction t as [|c t [k IH]]; [exists O; reflexivity|]. cbn [unblank].
  destruct (code c =? 32) eqn:Hc; [|exists O; reflexivity].
  exists (S k). cbn [repeat app]. rewrite <- IH. f_equal. apply (code_chr_eq c 32); lia.
Qed.
Lemma printable_unblank t : printable t = true -> printable (unblank t) = true.
Proof. destruct (unblank_suffix t) as [k Hk]. rewrite Hk at 1. rewrite printable_app. tauto. Qed.
Lemma shave_eq t : shave t = rstrip (unblank t).
Proof. reflexivity. Qed.
Lemma strip_ljust t : printable t = true -> strip (ljust t) = shave t.
Proof.
  intros H. unfold ljust. rewrite drop_blanks_unblank by exact H.
  pose proof (printable_unblank t H) as H2. rewrite shave_eq.
  destruct (unblank t) as [|c u] eqn:Hu.
  - rewrite strip_rstrip by exact H. destruct (unblank_suffix t) as [k Hk]. rewrite Hu, app_nil_r in Hk.
    rewrite Hk. apply rstrip_blanks.
  - rewrite strip_rstrip by (apply printable_app; split; [exact H2|apply printable_blanks]).
    rewrite rstrip_app, rstrip_blanks. reflexivity.
Qed.
Lemma rstrip_unblank_nil t : rstrip t = [] -> unblank t = [].
Proof.
  unfold rstrip. intros H. assert (unblank (rev t) = []) as H2.
  { destruct (unblank (rev t)) as [|c u]; [reflexivity|]. cbn in H. destruct (rev u); discriminate. }
  destruct (unblank_suffix (rev t)) as [k Hk]. rewrite H2, app_nil_r in Hk.
  rewrite <- (rev_involutive t), Hk. clear. 
  rewrite rev_blanks.
  induction k as [|k IH]; [reflexivity|]. cbn. exact IH.
Qed.
Lemma rstrip_idem t : rstrip (rstrip t) = rstrip t.
Proof.
  unfold rstrip. rewrite rev_involutive. f_equal.
  induction (rev t) as [|c u IH]; [reflexivity|]. cbn [unblank]. destruct (code c =? 32) eqn:H; [exact IH|].
  cbn [unblank]. rewrite H. reflexivity.
Qed.
Lemma unblank_rstrip t : unblank (rstrip t) = rstrip (unblank t).
Proof.
  destruct (unblank_suffix t) as [k Hk]. destruct (unblank t) as [|c u] eqn:Hu.
  { rewrite app_nil_r in Hk. subst t. rewrite rstrip_blanks. reflexivity. }
  assert (Hc : (code c =? 32) = false).
  { clear Hk. induction t as [|d t IH]; [discriminate|]. cbn in Hu. destruct (code d =? 32) eqn:Hd; [auto|congruence]. }
  rewrite Hk at 1. rewrite rstrip_app.
  assert (Hr : exists r, rstrip (c :: u) = c :: r).
  { change (c :: u) with ([c] ++ u). rewrite rstrip_app. destruct (rstrip u).
    - exists []. unfold rstrip. cbn. rewrite Hc. reflexivity.
    - eexists. reflexivity. }
  destruct Hr as [r Hr]. rewrite Hr. rewrite unblank_app.
  assert (unblank (repeat BLANK k) = []) as ->.
  { clear. induction k as [|k IH]; [reflexivity|]. cbn. exact IH. }
  cbn. rewrite Hc. reflexivity.
Qed.
Lemma shave_rstrip t : shave (rstrip t) = shave t.
Proof. rewrite !shave_eq, unblank_rstrip, rstrip_idem. reflexivity. Qed.

(** Words. *)
Definition inked (t : str) : bool := forallb (fun c => 32 <? code c) t.
Lemma rstrip_inked t : inked t = true -> rstrip t = t.
Proof.
  intros H. unfold rstrip. rewrite <- (rev_involutive t) at 2. f_equal.
  assert (H2 : inked (rev t) = true).
  { unfold inked in *. rewrite forallb_forall in *. intros c Hc. apply H, in_rev, Hc. }
  destruct (rev t) as [|c u]; [reflexivity|]. cbn in H2 |- *. replace (code c =? 32) with false by lia. reflexivity.
Qed.
Lemma unblank_inked t r : inked t = true -> t <> [] -> unblank (t ++ r) = t ++ r.
Proof.
  destruct t as [|c t]; [congruence|]. intros H _. cbn in H |- *. replace (code c =? 32) with false by lia. reflexivity.
Qed.
Lemma inked_printable t : inked t = true -> printable t = true.
Proof. unfold inked, printable. rewrite !forallb_forall. intros H c Hc. specialize (H c Hc). lia. Qed.
Lemma shave_inked t : inked t = true -> shave t = t.
Proof.
  intros H. rewrite shave_eq. destruct t as [|c t]; [reflexivity|].
  rewrite <- (app_nil_r (c :: t)) at 1. rewrite unblank_inked by (auto; discriminate).
  rewrite app_nil_r. apply rstrip_inked, H.
Qed.
Lemma shave_cons_blank t : shave (BLANK :: t) = shave t.
Proof. reflexivity. Qed.
Lemma shave_word w v : inked w = true -> w <> [] ->
  shave (w ++ BLANK :: v) = match rstrip v with [] => w | u => w ++ BLANK :: u end.
Proof.
  intros H Hne. rewrite shave_eq, unblank_inked by assumption. rewrite rstrip_app.
  change (BLANK :: v) with ([BLANK] ++ v). rewrite rstrip_app.
  destruct (rstrip v) as [|c u]; [apply rstrip_inked, H|reflexivity].
Qed.

Lemma word_inked w : word w = true -> inked w = true.
Proof.
  unfold word, inked. rewrite andb_true_iff. intros [_ H]. rewrite forallb_forall in *.
  intros c Hc. specialize (H c Hc). unfold isalpha, isupper, islower, isdigit in H. lia.
Qed.
Lemma word_ne w : word w = true -> w <> [].
Proof. destruct w; [discriminate|congruence]. Qed.
Lemma word_chars w : word w = true -> forallb word_char w = true.
Proof.
  unfold word. rewrite andb_true_iff. intros [_ H]. rewrite forallb_forall in *.
  intros c Hc. specialize (H c Hc). unfold word_char. rewrite (orb_comm (isdigit c)). exact H.
Qed.
Lemma ident_inked n : ident n = true -> inked n = true.
Proof.
  destruct n as [|c r]; [discriminate|]. cbn [ident inked]. unfold inked. cbn [forallb].
  rewrite !andb_true_iff, !forallb_forall. intros [[H1 H2] _]. split.
  - unfold isalpha, isupper, islower in H1. lia.
  - intros d Hd. specialize (H2 d Hd). unfold isalpha, isupper, islower, isdigit in H2. lia.
Qed.
Lemma ident_chars n : ident n = true ->
  forallb (fun c => isalpha c || isdigit c || (code c =? 95) || (code c =? 35)) n = true.
Proof.
  destruct n as [|c r]; [discriminate|]. cbn [ident forallb]. rewrite !andb_true_iff. intros [[H1 H2] _].
  split; [apply orb_true_iff in H1 as [->| ->]; rewrite ?orb_true_r; reflexivity|exact H2].
Qed.
Lemma ident_len n : ident n = true -> (1 <= length n <= 20)%nat.
Proof. destruct n as [|c r]; [discriminate|]. cbn [ident length]. lia. Qed.

Lemma trim_inked t : inked t = true -> trim t = t.
Proof.
  intros H. unfold trim. pose proof (inked_printable t H) as Hp.
  rewrite (drop_blanks_unblank t Hp).
  destruct t as [|c t]; [reflexivity|].
  rewrite <- (app_nil_r (c :: t)), unblank_inked, app_nil_r by (auto; discriminate).
  rewrite drop_blanks_unblank by (apply printable_rev, Hp). apply (rstrip_inked _ H).
Qed.
Lemma key_ident n : ident n = true -> key n = n.
Proof. intros H. apply trim_inked, ident_inked, H. Qed.
Lemma check_ident n : ident n = true -> check_name n OBJECTS = Ok tt.
Proof.
  destruct n as [|c r]; [discriminate|]. cbn [ident]. rewrite !andb_true_iff. intros [[H1 H2] H3].
  unfold check_name, K_MAX_NAME. cbn [length].
  replace (20 <? Z.of_nat (S (length r))) with false by lia.
  unfold regex_match_name, re_first, re_letter, is_us, K_MAX_NAME. rewrite H1.
  assert (forallb (re_next OBJECTS) r = true) as ->.
  { rewrite forallb_forall in *. intros d Hd. specialize (H2 d Hd).
    unfold re_next, re_letter, is_us, is_sharp. exact H2. }
  replace (Z.of_nat (length r) <=? 20 - 1) with true by lia. reflexivity.
Qed.

Lemma span_word p w c r : forallb p w = true -> p c = false -> span p (w ++ c :: r) = (w, c :: r).
Proof.
  intros H Hc. induction w as [|d w IH]; cbn [app span]; [now rewrite Hc|].
  cbn in H. apply andb_true_iff in H as [H1 H2]. rewrite H1, IH by exact H2. reflexivity.
Qed.
Lemma span_word_nil p w : forallb p w = true -> span p w = (w, []).
Proof.
  intros H. induction w as [|d w IH]; cbn [span]; [reflexivity|].
  cbn in H. apply andb_true_iff in H as [H1 H2]. rewrite H1, IH by exact H2. reflexivity.
Qed.

Lemma shave_len t : (length (shave t) <= length t)%nat.
Proof.
  rewrite shave_eq. unfold rstrip. rewrite rev_length.
  assert (H : forall u, (length (unblank u) <= length u)%nat).
  { intros u. induction u as [|c u IH]; [reflexivity|]. cbn [unblank]. destruct (code c =? 32); cbn [length]; lia. }
  pose proof (H (rev (unblank t))). pose proof (H t). rewrite rev_length in *. lia.
Qed.
Lemma splitline_word w v : word w = true -> (length w <= 30)%nat -> printable v = true ->
  splitline (w ++ BLANK :: v) = Split w (shave v) true.
Proof.
  intros Hw Hl Hv. unfold splitline. pose proof (word_inked w Hw) as Hi. pose proof (word_chars w Hw) as Hc.
  destruct w as [|c w]; [discriminate|]. cbn [app].
  replace (is 10 c) with false by (cbn in Hi; unfold is; lia).
  change (c :: w ++ BLANK :: v) with ((c :: w) ++ BLANK :: v).
  rewrite span_word by (auto; reflexivity).
  replace (Nat.ltb 30 (length (c :: w))) with false by lia.
  rewrite strip_ljust by (apply printable_cons; split; [cbn; lia|exact Hv]).
  rewrite shave_cons_blank. pose proof (shave_len v).
  replace (Nat.ltb (length (shave v)) (length (BLANK :: v))) with true by (cbn [length]; lia). reflexivity.
Qed.
Lemma splitline_alone w : word w = true -> (length w <= 30)%nat -> splitline w = Split w [] false.
Proof.
  intros Hw Hl. unfold splitline. pose proof (word_inked w Hw) as Hi. pose proof (word_chars w Hw) as Hc.
  destruct w as [|c w]; [discriminate|]. cbn [app].
  replace (is 10 c) with false by (cbn in Hi; unfold is; lia).
  rewrite span_word_nil by exact Hc.
  replace (Nat.ltb 30 (length (c :: w))) with false by lia. reflexivity.
Qed.

Lemma untab_printable t : printable t = true -> untab t = t.
Proof.
  induction t as [|c t IH]; [reflexivity|]. rewrite printable_cons. intros [Hc Ht]. cbn.
  replace (is 9 c) with false by (unfold is; lia). rewrite <- IH at 2 by exact Ht. reflexivity.
Qed.
Lemma ljust_id c t : isspace c = false -> ljust (c :: t) = c :: t.
Proof. intros H. unfold ljust. cbn [drop_blanks]. rewrite H. rewrite Nat.sub_diag. cbn. rewrite app_nil_r. reflexivity. Qed.
Lemma not_sep c : (isalpha c || isdigit c || (code c =? 95) || (code c =? 35)) = true -> mem B_SEPS c = false.
Proof.
  intros H. unfold mem, B_SEPS, BLANK. cbn [existsb]. rewrite !eqb_code by lia.
  unfold isalpha, isupper, islower, isdigit in H. lia.
Qed.

Lemma get_arg0_word n v : ident n = true -> printable v = true ->
  get_arg0 (shave (n ++ BLANK :: v)) 21 = (n, shave (n ++ BLANK :: v)).
Proof.
  intros Hn Hv. pose proof (ident_inked n Hn) as Hi. pose proof (ident_len n Hn) as Hl.
  assert (Hne : n <> []) by (destruct n; [discriminate|congruence]).
  assert (Hns : forallb (fun c => negb (mem B_SEPS c)) n = true).
  { apply ident_chars in Hn. rewrite forallb_forall in *. intros c Hc. rewrite not_sep; auto. }
  assert (Hcase : exists u, shave (n ++ BLANK :: v) = n ++ u /\ printable u = true /\ (u = [] \/ exists u', u = BLANK :: u')).
  { rewrite shave_word by assumption. destruct (rstrip v) as [|c u] eqn:Hr.
    - exists []. rewrite app_nil_r. auto.
    - exists (BLANK :: c :: u). split; [reflexivity|]. split; [|eauto].
      apply printable_cons. split; [cbn; lia|]. rewrite <- Hr. unfold rstrip. apply printable_rev.
      apply printable_unblank, printable_rev, Hv. }
  destruct Hcase as (u & -> & Hu & Hcase). unfold get_arg0.
  rewrite untab_printable by (apply printable_app; split; [apply inked_printable, Hi|exact Hu]).
  assert (Hlj : ljust (n ++ u) = n ++ u).
  { destruct n as [|c n]; [congruence|]. cbn [app]. apply ljust_id. cbn in Hi. unfold isspace. lia. }
  rewrite Hlj. f_equal.
  rewrite firstn_app. rewrite firstn_all2 by lia.
  destruct Hcase as [->|[u' ->]].
  - rewrite firstn_nil, app_nil_r. rewrite span_word_nil by exact Hns. reflexivity.
  - destruct (21 - 1 - length n)%nat as [|m]; cbn [firstn].
    + rewrite app_nil_r. rewrite span_word_nil by exact Hns. reflexivity.
    + rewrite span_word by (auto; reflexivity). reflexivity.
Qed.

(** * States *)
Section Refine.
Context {W : Type} (E : env W).
Notation rep := (rep W).
Notation conf := (conf W).

Definition at_ (id : nat) (f : rfile) (s : rep) : rep := set_files (file_set (r_files s) id f) (r_next s) s.
Lemma file_del_idem l id : file_del (file_del l id) id = file_del l id.
Proof.
  unfold file_del. induction l as [|e l IH]; [reflexivity|]. cbn [filter].
  destruct (negb (Nat.eqb (fst e) id)) eqn:H; [|exact IH]. cbn [filter]. rewrite H, IH. reflexivity.
Qed.
Lemma file_del_set l id f : file_del (file_set l id f) id = file_del l id.
Proof. unfold file_set, file_del. cbn [filter fst]. rewrite Nat.eqb_refl. cbn. apply file_del_idem. Qed.
Lemma file_get_set l id f : file_get (file_set l id f) id = Some f.
Proof. cbn. rewrite Nat.eqb_refl. reflexivity. Qed.
Lemma at_at id f f' s : at_ id f (at_ id f' s) = at_ id f s.
Proof.
  unfold at_. cbn. unfold file_set. unfold set_files. cbn. f_equal. f_equal.
  rewrite Nat.eqb_refl. cbn. apply file_del_idem.
Qed.
Lemma set_pos_at id f p s : file_get (r_files s) id = Some f ->
  set_pos id p s = Done tt (at_ id {| rf_lines := rf_lines f; rf_pos := p |} s).
Proof. intros H. unfold set_pos, bind, file_of. rewrite H. reflexivity. Qed.

Record rel (s : rep) (c : conf) : Prop := {
  rl_macro : forall k, lookup (r_macros s) k = c_macro c k;
  rl_args : args_left s = c_args c;
  rl_arg0 : 0 <= r_arg0 s <= Z.of_nat (length (tl (r_argv s)));
  rl_ne : r_argv s <> [];
  rl_len : Z.of_nat (length (r_argv s)) < 2 ^ 30;
  rl_policy : r_rt s = policy_code (c_policy c);
  rl_show : (r_print s =? 0) = negb (c_show c);
  rl_quotes : r_nopar s = c_quotes c;
  rl_out : r_trace s = c_out c;
  rl_world : r_world s = c_world c
}.
Lemma rel_reads s c : rel s c -> reads E s (reading_of E c).
Proof.
  intros [H1 H2 H3 H4 H5 H6 H7 H8 H9 H10]. constructor; cbn; auto.
  - intros n. rewrite <- H1. reflexivity.
  - intros t. rewrite H10. reflexivity.
Qed.
(** What a run leaves as it is. *)
Record frame (id : nat) (s s' : rep) : Prop := {
  fr_indent : r_indent s' = r_indent s;
  fr_multi : r_multi s' = r_multi s;
  fr_nopar : r_nopar s' = r_nopar s;
  fr_print : r_print s' = r_print s;
  fr_vseps : r_vseps s' = r_vseps s;
  fr_rptstr : r_rptstr s' = r_rptstr s;
  fr_procs : r_procs s' = r_procs s;
  fr_depth : r_depth s' = r_depth s;
  fr_argv : r_argv s' = r_argv s;
  fr_files : file_del (r_files s') id = file_del (r_files s) id;
  fr_next : (r_next s <= r_next s')%nat
}.
Lemma frame_refl id s : frame id s s.
Proof. constructor; reflexivity. Qed.
Lemma frame_trans id s1 s2 s3 : frame id s1 s2 -> frame id s2 s3 -> frame id s1 s3.
Proof. intros [] []. constructor; try congruence. lia. Qed.

Definition loaded (id : nat) (lines : list str) (pc : nat) (s : rep) : Prop :=
  file_get (r_files s) id = Some {| rf_lines := lines; rf_pos := pc |} /\ r_cur s = Some id /\
  numbered s.
Lemma rel_at s c id f : rel s c -> rel (at_ id f s) c.
Proof. intros []. constructor; auto. Qed.
Lemma frame_at id f s : frame id s (at_ id f s).
Proof. constructor; try reflexivity. cbn [r_files at_ set_files]. apply file_del_set. Qed.
Lemma file_get_In l id f : file_get l id = Some f -> In (id, f) l.
Proof.
  induction l as [|[i g] l IH]; [discriminate|]. cbn. destruct (Nat.eqb i id) eqn:H; intros H1.
  - injection H1 as ->. left. f_equal. apply Nat.eqb_eq, H.
  - auto.
Qed.
Lemma loaded_id id lines pc s : loaded id lines pc s -> (id < r_next s)%nat.
Proof. intros (H1 & _ & H3). unfold numbered in H3. rewrite Forall_forall in H3. apply (H3 _ (file_get_In _ _ _ H1)). Qed.
Lemma loaded_at id lines pc pc' s : loaded id lines pc s ->
  loaded id lines pc' (at_ id {| rf_lines := lines; rf_pos := pc' |} s).
Proof.
  intros (H1 & H2 & H3). split; [apply file_get_set|]. split; [exact H2|]. unfold numbered in *. cbn [r_files r_next at_ set_files].
  constructor; [apply (loaded_id id lines pc s); split; auto|]. unfold file_del.
  rewrite Forall_forall in *. intros e He. apply filter_In in He. apply H3, He.
Qed.

Lemma skipn_nth {A} (l : list A) n x : nth_error l n = Some x -> skipn n l = x :: skipn (S n) l.
Proof.
  revert n. induction l as [|y l IH]; intros [|n] H; try discriminate.
  - injection H as ->. reflexivity.
  - cbn in H. apply IH in H. cbn [skipn]. exact H.
Qed.
Lemma goes_on_continued t : goes_on t = false -> continued t = None.
Proof.
  unfold goes_on, continued, is. destruct (rev t) as [|b [|a r]]; auto. intros H.
  rewrite H. reflexivity.
Qed.
Lemma read_raw_line id lines pc s t : loaded id lines pc s -> nth_error lines pc = Some t -> goes_on t = false ->
  read_raw id s = Done (Some t) (at_ id {| rf_lines := lines; rf_pos := S pc |} s).
Proof.
  intros (H1 & H2 & _) Hn Hg. unfold read_raw, bind, file_of. rewrite H1. unfold get. cbn [rf_pos rf_lines].
  rewrite (skipn_nth _ _ _ Hn).
  unfold multiline. fold multiline. cbn [app]. rewrite (goes_on_continued t Hg).
  assert ((if r_multi s then @None str else None) = None) as -> by (destruct (r_multi s); reflexivity).
  rewrite (set_pos_at id _ _ s H1). cbn [rf_lines]. unfold ret. do 3 f_equal. rewrite Nat.add_1_r. reflexivity.
Qed.
Lemma read_raw_end id lines pc s : loaded id lines pc s -> nth_error lines pc = None ->
  read_raw id s = Done None s.
Proof.
  intros (H1 & H2 & _) Hn. unfold read_raw, bind, file_of. rewrite H1. unfold get. cbn [rf_pos rf_lines].
  apply nth_error_None in Hn. rewrite skipn_all2 by exact Hn. reflexivity.
Qed.

(** * Values of what is written *)
Lemma source_app a b : source (a ++ b) = source a ++ source b.
Proof. unfold source. apply flat_map_app. Qed.
Lemma value_app g a b : value g (a ++ b) = value g a ++ value g b.
Proof. unfold value. apply flat_map_app. Qed.
Lemma source_lits t : source (lits t) = t.
Proof. unfold source, lits. induction t as [|c t IH]; [reflexivity|]. cbn. rewrite IH. reflexivity. Qed.
Lemma value_lits g t : value g (lits t) = t.
Proof. unfold value, lits. induction t as [|c t IH]; [reflexivity|]. cbn. rewrite IH. reflexivity. Qed.

Lemma unindent_texty (t : str) : texty t = true -> unindent t = t.
Proof.
  unfold unindent. intros H.
  assert (Hd : match drop_blanks t with c :: _ => is_dollar c = false | [] => True end).
  { induction t as [|c t IH]; [exact I|]. cbn [texty drop_blanks] in H |- *. destruct (isspace c); [exact (IH H)|].
    apply negb_true_iff, among_false in H. unfold is_dollar, is. cbn in H. lia. }
  destruct (drop_blanks t) as [|c r]; [reflexivity|]. rewrite Hd. reflexivity.
Qed.
Lemma unindent_dollar c t : is_dollar c = true -> unindent (c :: t) = c :: t.
Proof.
  intros H. assert (isspace c = false) by (unfold is_dollar, is, isspace in *; lia).
  unfold unindent. cbn [drop_blanks]. rewrite H0, H. apply ljust_id, H0.
Qed.
Lemma indent_id t (s : rep) : unindent t = t -> indent t s = Done t s.
Proof. intros H. unfold indent, bind, get, ret. rewrite H. destruct (r_indent s); reflexivity. Qed.

(** * Labels *)
Lemma texty_head c t : texty (c :: t) = true -> is_dollar c = false.
Proof.
  cbn [texty]. destruct (isspace c) eqn:Hs; intros H.
  - unfold is_dollar, is, isspace in *. lia.
  - apply negb_true_iff, among_false in H. unfold is_dollar, is. cbn in H. lia.
Qed.
Lemma command_of_texty t : texty t = true -> command_of t = None.
Proof.
  destruct t as [|c [|d t]]; auto. intros H. apply texty_head in H. cbn. rewrite H. reflexivity.
Qed.


Lemma splitline_name w r : word w = true -> (length w <= 30)%nat ->
  match r with [] => True | c :: _ => word_char c = false end ->
  exists a room, splitline (w ++ r) = Split w a room.
Proof.
  intros Hw Hl Hr. unfold splitline. pose proof (word_inked w Hw) as Hi. pose proof (word_chars w Hw) as Hc.
  destruct w as [|c w]; [discriminate|]. cbn [app].
  replace (is 10 c) with false by (cbn in Hi; unfold is; lia).
  change (c :: w ++ r) with ((c :: w) ++ r).
  assert (span word_char ((c :: w) ++ r) = (c :: w, r)) as ->.
  { destruct r as [|d r]; [rewrite app_nil_r; apply span_word_nil, Hc|apply span_word; auto]. }
  replace (Nat.ltb 30 (length (c :: w))) with false by lia. eauto.
Qed.

Lemma dollar_command (t : str) : command_of (chr 36 :: t) =
  match t with [] => None | d :: _ => if negb (Ascii.eqb d (chr 36)) && negb (mem blank4 d) then Some t else None end.
Proof. destruct t as [|d t]; reflexivity. Qed.
Lemma word_not c : (isalpha c || isdigit c || (code c =? 95)) = true ->
  Ascii.eqb c (chr 36) = false /\ mem blank4 c = false /\ is 45 c = false.
Proof.
  intros H. unfold isalpha, isupper, islower, isdigit in H. unfold mem, blank4, BLANK, is. cbn [existsb].
  rewrite !eqb_code by lia. repeat split; lia.
Qed.
Lemma command_of_word w r : word w = true -> command_of (chr 36 :: w ++ r) = Some (w ++ r).
Proof.
  intros H. destruct w as [|c w]; [discriminate|]. cbn [app]. rewrite dollar_command.
  unfold word in H. cbn [nonempty forallb] in H. apply andb_true_iff in H as [_ H]. apply andb_true_iff in H as [H _].
  apply word_not in H as (-> & -> & _). reflexivity.
Qed.

(** A line looked at by the search of a label or of a $next. *)
Definition seeks (cmd parm : str) (line : str) : option bool :=
  match command_of line with
  | None => Some false
  | Some t => match splitline t with
              | Split name arg _ => Some (str_eqb (to_lower name) cmd && str_eqb parm (to_lower arg))
              | _ => None
              end
  end.
Definition target (cmd parm : str) (st : stmt) : bool :=
  match st with
  | SLabel l => str_eqb (S2L "label") cmd && str_eqb parm (to_lower l)
  | SNext i => str_eqb (S2L "next") cmd && str_eqb parm (to_lower i)
  | _ => false
  end.
Definition sought (cmd : str) : Prop := cmd = S2L "label" \/ cmd = S2L "next".
Fixpoint after_target (cmd parm : str) (prog : list stmt) : option nat :=
  match prog with
  | [] => None
  | st :: prog' => if target cmd parm st then Some 1%nat else option_map S (after_target cmd parm prog')
  end.
Lemma after_label_target l prog : after_label l prog = after_target (S2L "label") (to_lower l) prog.
Proof.
  induction prog as [|st prog IH]; [reflexivity|]. cbn [after_label after_target].
  destruct st; cbn [target]; rewrite IH; try reflexivity.
  rewrite (str_eqb_sym (to_lower l0)). reflexivity.
Qed.
Lemma after_next_target l prog : after_next l prog = after_target (S2L "next") (to_lower l) prog.
Proof.
  induction prog as [|st prog IH]; [reflexivity|]. cbn [after_next after_target].
  destruct st; cbn [target]; rewrite IH; try reflexivity.
  rewrite (str_eqb_sym (to_lower i)). reflexivity.
Qed.

Lemma seeks_word cmd parm w r : word w = true -> (length w <= 30)%nat ->
  match r with [] => True | c :: _ => word_char c = false end ->
  str_eqb (to_lower w) cmd = false ->
  seeks cmd parm (chr 36 :: w ++ r) = Some false.
Proof.
  intros Hw Hl Hr Hne. unfold seeks. rewrite command_of_word by exact Hw.
  destruct (splitline_name w r Hw Hl Hr) as (a & room & ->). rewrite Hne. reflexivity.
Qed.
Lemma seeks_label cmd parm w l : word w = true -> (length w <= 30)%nat -> to_lower w = w -> word l = true ->
  seeks cmd parm (chr 36 :: w ++ BLANK :: l) = Some (str_eqb w cmd && str_eqb parm (to_lower l)).
Proof.
  intros Hw Hn Hlow Hl. unfold seeks. rewrite command_of_word by exact Hw.
  rewrite splitline_word; [|exact Hw|exact Hn|apply inked_printable, word_inked, Hl].
  rewrite shave_inked by (apply word_inked, Hl). rewrite Hlow. reflexivity.
Qed.
Lemma line_unindent st : stmt_ok st = true -> unindent (line_of st) = line_of st.
Proof.
  unfold stmt_ok. rewrite andb_true_iff. intros [_ H]. unfold line_of.
  destruct st as [ps|ps|name ps|name|l|l [ps|]|ig name ps|p|k| | |i ps|i|name fs| |name ps]; cbn [written];
    rewrite ?source_app, ?source_lits; try (apply unindent_dollar; reflexivity).
  apply unindent_texty, H.
Qed.
Lemma index_word i : index_ok i = true -> word i = true.
Proof. unfold index_ok. rewrite !andb_true_iff. tauto. Qed.
Lemma seeks_line cmd parm st : sought cmd -> stmt_ok st = true ->
  seeks cmd parm (line_of st) = Some (target cmd parm st).
Proof.
  intros Hcmd H. pose proof H as H'. unfold stmt_ok in H. rewrite andb_true_iff in H. destruct H as [_ H]. unfold line_of.
  assert (Hword : forall w r, word w = true -> (length w <= 30)%nat -> str_eqb (to_lower w) (S2L "label") = false ->
      str_eqb (to_lower w) (S2L "next") = false ->
      seeks cmd parm (chr 36 :: w ++ BLANK :: r) = Some false).
  { intros w r Hw Hl Hn1 Hn2. apply seeks_word; auto. destruct Hcmd as [-> | ->]; assumption. }
  destruct st as [ps|ps|name ps|name|l|l [ps|]|ig name ps|p|k| | |i ps|i|name fs| |name ps]; cbn [written];
    rewrite ?source_app, ?source_lits.
  - unfold seeks. rewrite command_of_texty by exact H. reflexivity.
  - reflexivity.
  - apply (Hword (S2L "define") ((name ++ [BLANK]) ++ source ps)); reflexivity || (cbn; lia).
  - apply (Hword (S2L "undef") name); reflexivity || (cbn; lia).
  - apply (seeks_label cmd parm (S2L "label") l); reflexivity || (try exact H; cbn; lia).
  - apply (Hword (S2L "goto") ((l ++ [BLANK]) ++ source ps)); reflexivity || (cbn; lia).
  - apply (Hword (S2L "goto") l); reflexivity || (cbn; lia).
  - apply andb_true_iff in H as [H Hr]. apply andb_true_iff in H as [Hw Hl].
    destruct ig; cbn [app].
    + destruct Hcmd as [-> | ->]; reflexivity.
    + rewrite <- app_assoc. cbn [app].
      apply negb_true_iff in Hr. cbn [reserved map existsb] in Hr.
      repeat (apply orb_false_iff in Hr as [?H Hr]).
      apply Hword; auto. lia.
  - apply (Hword (S2L "onerror") (policy_word p)); reflexivity || (cbn; lia).
  - apply (Hword (S2L "shift") (to_string k)); reflexivity || (cbn; lia).
  - destruct Hcmd as [-> | ->]; reflexivity.
  - destruct Hcmd as [-> | ->]; reflexivity.
  - apply (Hword (S2L "foreach") ((i ++ [BLANK]) ++ source ps)); reflexivity || (cbn; lia).
  - apply (seeks_label cmd parm (S2L "next") i); reflexivity || (try (apply index_word, H); cbn; lia).
  - apply (Hword (S2L "procdef") (name ++ flat_map (cons BLANK) fs)); reflexivity || (cbn; lia).
  - destruct Hcmd as [-> | ->]; reflexivity.
  - apply (Hword (S2L "procexec") ((name ++ [BLANK]) ++ source ps)); reflexivity || (cbn; lia).
Qed.

Lemma Some_inj {A} (a b : A) : Some a = Some b -> a = b.
Proof. congruence. Qed.
Lemma find_label_spec id cmd parm (prog : list stmt) : sought cmd -> forallb stmt_ok prog = true ->
  forall k n s, (length prog - k < n)%nat -> loaded id (map line_of prog) k s ->
  find_label n id cmd parm s =
  match after_target cmd parm (skipn k prog) with
  | Some i => Done 0 (at_ id {| rf_lines := map line_of prog; rf_pos := k + i |} s)
  | None => Done (-3) (if Nat.ltb k (length prog) then at_ id {| rf_lines := map line_of prog; rf_pos := length prog |} s else s)
  end.
Proof.
  intros Hcmd Hok k n. remember (length prog - k)%nat as d eqn:Hd. revert k n Hd.
  induction d as [|d IH]; intros k n Hd s Hn Hl.
  - destruct n as [|n]; [lia|]. cbn [find_label]. unfold bind, read_line, bind.
    rewrite (read_raw_end id (map line_of prog) k s Hl) by (apply nth_error_None; rewrite map_length; lia).
    rewrite skipn_all2 by lia. cbn [after_target]. replace (Nat.ltb k (length prog)) with false by lia. reflexivity.
  - destruct n as [|n]; [lia|]. cbn [find_label]. unfold bind at 1. unfold read_line, bind at 1.
    destruct (nth_error prog k) as [st|] eqn:Hst.
    2:{ apply nth_error_None in Hst. lia. }
    assert (Hst_ok : stmt_ok st = true).
    { rewrite forallb_forall in Hok. apply Hok. eapply nth_error_In; eauto. }
    rewrite (read_raw_line id (map line_of prog) k s (line_of st) Hl).
    2:{ rewrite nth_error_map, Hst. reflexivity. }
    2:{ unfold stmt_ok in Hst_ok. apply andb_true_iff in Hst_ok as [Hg _]. apply negb_true_iff, Hg. }
    unfold bind at 1. rewrite indent_id by (apply line_unindent, Hst_ok). unfold ret at 1.
    pose proof (seeks_line cmd parm st Hcmd Hst_ok) as Hs. unfold seeks in Hs.
    rewrite (skipn_nth _ _ _ Hst).
    set (s1 := at_ id _ s).
    assert (Hl1 : loaded id (map line_of prog) (S k) s1) by (eapply loaded_at; exact Hl).
    assert (Hlt : (k < length prog)%nat) by (apply nth_error_Some; congruence).
    assert (Hgo : find_label n id cmd parm s1 =
      match option_map S (after_target cmd parm (skipn (S k) prog)) with
      | Some i => Done 0 (at_ id {| rf_lines := map line_of prog; rf_pos := k + i |} s)
      | None => Done (-3) (at_ id {| rf_lines := map line_of prog; rf_pos := length prog |} s)
      end).
    { rewrite (IH (S k) n ltac:(lia) s1 ltac:(lia) Hl1). 
      destruct (after_target cmd parm (skipn (S k) prog)) as [i|]; cbn [option_map]; unfold s1; rewrite !at_at.
      - do 2 f_equal. f_equal. lia.
      - destruct (Nat.ltb (S k) (length prog)) eqn:Hlt2; [reflexivity|].
        replace (length prog) with (S k) by lia. reflexivity. }
    replace (Nat.ltb k (length prog)) with true by lia.
    cbn [after_target].
    destruct (command_of (line_of st)) as [t|] eqn:Hc.
    + destruct (splitline t) as [| |name arg room]; try discriminate. apply Some_inj in Hs. rewrite Hs.
      destruct (target cmd parm st); [|exact Hgo].
      unfold ret, s1. rewrite Nat.add_1_r. reflexivity.
    + apply Some_inj in Hs. rewrite <- Hs. exact Hgo.
Qed.

End Refine.
