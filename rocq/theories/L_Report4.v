(** Lemmas: each statement of S_Report, each report. *)
From Coq Require Import ZArith Ascii String List Bool Lia ZifyBool.
From Verif Require Import M_Base M_Names M_Lex M_Kdb M_Grep M_Report S_Report S_Names L_Names L_Kdb L_Time L_Report L_Report2 L_Report3.
Import ListNotations.
Open Scope Z_scope.

Section Refine.
Context {W : Type} (E : env W).
Notation rep := (rep W).
Notation conf := (conf W).

(** A line that has been run, as the description says. *)
Definition follows (id : nat) (lines : list str) (s : rep) (r : run rep (option Z)) (o : outcome) : Prop :=
  match o with
  | Stuck => True
  | Next pc c => exists s', r = Done None s' /\ rel s' c /\ loaded id lines pc s' /\ frame id s s'
  | Stop rc c => exists s', r = Done (Some rc) s' /\ rel s' c /\ (exists p, loaded id lines p s') /\ frame id s s'
  end.

Lemma safe_format_ok t : safe_format t = no_lone_percent t.
Proof.
  assert (H : forall n t, (length t <= n)%nat -> safe_format t = no_lone_percent t); [|eauto].
  intros n. induction n as [|n IH]; intros [|c r] Hl; try reflexivity; cbn [length] in Hl; [lia|].
  cbn [safe_format no_lone_percent]. change PERCENT with (chr 37). rewrite !eqb_code by lia.
  destruct (code c =? 37).
  - destruct r as [|d r']; [reflexivity|]. cbn [length] in Hl. rewrite eqb_code by lia.
    rewrite IH by lia. reflexivity.
  - apply IH. lia.
Qed.

Lemma rel_event (s : rep) (c : conf) e : rel s c -> rel (add_event e s) (out e c).
Proof. intros []. constructor; cbn; auto. congruence. Qed.
Lemma frame_event id (s s' : rep) e : frame id s s' -> frame id s (add_event e s').
Proof. intros []. constructor; auto. Qed.
Lemma set_cur_same (s : rep) id : r_cur s = Some id -> set_cur (Some id) s = s.
Proof. destruct s; cbn. intros ->. reflexivity. Qed.

Lemma after_ok id lines pc (s0 s : rep) (c : conf) ignore name arg rc :
  rel s c -> loaded id lines pc s -> frame id s0 s ->
  follows id lines s0 (after ignore name arg rc s) (returns ignore name arg rc pc c).
Proof.
  intros Hr Hl Hf. unfold after, returns. destruct (rc =? -1) eqn:H1.
  - unfold fails. destruct ignore; [exists s; auto|].
    destruct (c_show c) eqn:Hsh; cbn [andb].
    + destruct (no_lone_percent arg) eqn:Hn; cbn [negb]; [|exact I].
      unfold bind, err_dump. pose proof (rl_show s c Hr) as Hp. rewrite Hsh in Hp. rewrite Hp. cbn [negb].
      rewrite safe_format_ok, Hn. unfold get, ret. cbn [r_rt add_event].
      pose proof (rl_policy s c Hr) as Hq. rewrite Hq.
      destruct (c_policy c); cbn [policy_code Z.eqb]; (eexists; split; [reflexivity|]);
        (split; [apply rel_event, Hr|]); (split; [|apply frame_event, Hf]); try exact Hl; exists pc; exact Hl.
    + unfold bind, err_dump. pose proof (rl_show s c Hr) as Hp. rewrite Hsh in Hp. rewrite Hp. cbn [negb].
      unfold get, ret. pose proof (rl_policy s c Hr) as Hq. rewrite Hq.
      destruct (c_policy c); cbn [policy_code Z.eqb]; (eexists; split; [reflexivity|]);
        (split; [exact Hr|]); (split; [|exact Hf]); try exact Hl; exists pc; exact Hl.
  - destruct (rc =? -2); [|destruct ((rc =? -3) || (rc =? -4))]; exists s; (split; [reflexivity|]); (split; [exact Hr|]);
      (split; [|exact Hf]); try exact Hl; exists pc; exact Hl.
Qed.

(** A command line: the command has run and the state is known. *)
Lemma line_after (R : fns W) id (s s1 : rep) w a arg room rc ig :
  word w = true -> (length w <= 30)%nat ->
  splitline (w ++ a) = Split w arg room ->
  f_exec R w (Arg arg room) (chr 36) s = Done rc s1 -> r_cur s1 = Some id ->
  line_F E R id (chr 36 :: (if ig : bool then [chr 45] else []) ++ w ++ a) s = after ig w arg rc s1.
Proof.
  intros Hw Hlen Hsp Hex Hcur. unfold line_F.
  assert (Hc : is_command (chr 36 :: (if ig : bool then [chr 45] else []) ++ w ++ a) = true /\
    command_of (chr 36 :: (if ig : bool then [chr 45] else []) ++ w ++ a) =
    Some ((if ig then [chr 45] else []) ++ w ++ a)).
  { destruct ig; [split; reflexivity|]. cbn [app]. rewrite command_of_word by exact Hw. split; [|reflexivity].
    destruct w as [|d w]; [discriminate|]. cbn [app is_command].
    unfold word in Hw. cbn [nonempty forallb] in Hw. apply andb_true_iff in Hw as [_ Hw]. apply andb_true_iff in Hw as [Hw _].
    apply word_not in Hw as (-> & _). reflexivity. }
  destruct Hc as [-> ->].
  assert (Hi : let t := (if ig then [chr 45] else []) ++ w ++ a in
    let ignore := match t with d :: _ => is 45 d | [] => false end in
    ignore = ig /\ (if ignore then tl t else t) = w ++ a).
  { destruct ig; [split; reflexivity|]. cbn [app]. 
    destruct w as [|d w]; [discriminate|]. cbn [app].
    unfold word in Hw. cbn [nonempty forallb] in Hw. apply andb_true_iff in Hw as [_ Hw]. apply andb_true_iff in Hw as [Hw _].
    apply word_not in Hw as (_ & _ & ->). split; reflexivity. }
  set (t := (if ig then [chr 45] else []) ++ w ++ a) in *. cbv zeta in Hi |- *.
  destruct Hi as [Hi1 Hi2]. cbv beta iota. rewrite Hi1 in *. replace (splitline (if ig then tl t else t)) with (splitline (w ++ a)) by (rewrite <- Hi2; reflexivity). rewrite Hsp. clearbody t.
  destruct w as [|d w]; [discriminate|]. unfold bind. cbn [hd]. rewrite Hex.
  unfold modify. rewrite set_cur_same by exact Hcur. reflexivity.
Qed.
Lemma line_command (R : fns W) id lines pc (s s1 : rep) (c1 : conf) w a arg room rc ig :
  word w = true -> (length w <= 30)%nat ->
  splitline (w ++ a) = Split w arg room ->
  f_exec R w (Arg arg room) (chr 36) s = Done rc s1 ->
  rel s1 c1 -> loaded id lines pc s1 -> frame id s s1 ->
  follows id lines s (line_F E R id (chr 36 :: (if ig : bool then [chr 45] else []) ++ w ++ a) s)
    (returns ig w arg rc pc c1).
Proof.
  intros Hw Hlen Hsp Hex Hr Hl Hf. rewrite (line_after R id s s1 w a arg room rc ig Hw Hlen Hsp Hex) by apply Hl.
  apply after_ok; assumption.
Qed.

Lemma lookup_put l k v k' : lookup (put l k v) k' = if str_eqb k k' then Some v else lookup l k'.
Proof.
  unfold put. cbn [lookup]. destruct (str_eqb k k') eqn:Hk; [reflexivity|].
  unfold remove_key. induction l as [|[a b] l IH]; [reflexivity|]. cbn [filter fst].
  destruct (str_eqb a k) eqn:Ha; cbn [negb lookup].
  - apply str_eqb_iff in Ha. subst a. rewrite Hk. exact IH.
  - rewrite IH. reflexivity.
Qed.
Lemma lookup_remove l k k' : lookup (remove_key l k) k' = if str_eqb k k' then None else lookup l k'.
Proof.
  unfold remove_key. induction l as [|[a b] l IH]; [destruct (str_eqb k k'); reflexivity|]. cbn [filter fst].
  destruct (str_eqb a k) eqn:Ha; cbn [negb lookup].
  - apply str_eqb_iff in Ha. subst a. rewrite IH. destruct (str_eqb k k'); reflexivity.
  - rewrite IH. destruct (str_eqb a k') eqn:Hb; [|reflexivity].
    apply str_eqb_iff in Hb. subst a. rewrite str_eqb_sym in Ha. rewrite Ha. reflexivity.
Qed.
Lemma rel_macros (s : rep) (c : conf) l m : rel s c -> (forall k, lookup l k = m k) ->
  rel (set_macros l s) {| c_macro := m; c_args := c_args c; c_policy := c_policy c; c_show := c_show c;
     c_quotes := c_quotes c; c_out := c_out c; c_world := c_world c |}.
Proof. intros [] H. constructor; cbn; auto. Qed.

Lemma exec_name R name a fs : word name = true -> existsb (str_eqb (to_lower name)) reserved = false ->
  exec_F E R name a fs = external E (to_lower name) a fs.
Proof.
  intros Hw Hr. unfold exec_F. rewrite trim_inked by (apply word_inked, Hw).
  set (n := to_lower name) in *. clearbody n. cbv zeta.
  cbn [reserved map existsb] in Hr.
  repeat (apply orb_false_iff in Hr as [?H Hr]).
  repeat match goal with H : str_eqb n _ = false |- _ => rewrite H; clear H end.
  reflexivity.
Qed.

Lemma define_ok name v (s : rep) : ident name = true -> printable v = true ->
  define (Arg (shave (name ++ BLANK :: v)) true) s =
  Done 0 (set_macros (put (r_macros s) name (shave v)) s).
Proof.
  intros Hn Hv. unfold define. rewrite get_arg0_word by assumption.
  assert (Hdef : forall u, define_1 name u s = Done 0 (set_macros (put (r_macros s) name u) s)).
  { intros u. unfold define_1. rewrite key_ident, check_ident by exact Hn. reflexivity. }
  rewrite shave_word by (try apply ident_inked; auto; destruct name; discriminate).
  destruct (rstrip v) as [|c u] eqn:Hr.
  - rewrite Nat.ltb_irrefl, Hdef. do 3 f_equal. rewrite <- shave_rstrip, Hr. reflexivity.
  - replace (Nat.ltb (length name) (length (name ++ BLANK :: c :: u))) with true
      by (rewrite app_length; cbn [length]; lia).
    rewrite Hdef. do 3 f_equal.
    replace (length name + 1)%nat with (length (name ++ [BLANK])) by (rewrite app_length; reflexivity).
    change (name ++ BLANK :: c :: u) with (name ++ [BLANK] ++ c :: u). rewrite app_assoc, skipn_app, skipn_all, Nat.sub_diag.
    cbn [app skipn]. rewrite <- Hr. rewrite strip_ljust.
    + apply shave_rstrip.
    + unfold rstrip. apply printable_rev, printable_unblank, printable_rev, Hv.
Qed.

Lemma aread_word s : forall w, forallb (fun c => negb (mem A_SEPS c) && negb (Ascii.eqb c QUOTE)) s = true ->
  (length w + length s <= A_MAX_ARG)%nat -> w ++ s <> [] -> aread s w false = [w ++ s].
Proof.
  induction s as [|c s IH]; intros w Hs Hl Hne.
  - rewrite app_nil_r in *. destruct w; [congruence|reflexivity].
  - cbn [forallb] in Hs. apply andb_true_iff in Hs as [Hc Hs]. apply andb_true_iff in Hc as [Hc1 Hc2].
    cbn [aread negb andb]. apply negb_true_iff in Hc1. rewrite Hc1. cbn [length] in Hl.
    replace (Nat.ltb (length w) A_MAX_ARG) with true by lia.
    apply negb_true_iff in Hc2. rewrite Hc2. rewrite IH.
    + rewrite <- app_assoc. reflexivity.
    + exact Hs.
    + rewrite app_length. cbn [length]. lia.
    + rewrite <- app_assoc. destruct w; discriminate.
Qed.
Lemma ainit_ident n : ident n = true -> ainit n = Some [n].
Proof.
  intros Hn. unfold ainit. pose proof (ident_len n Hn) as Hl.
  rewrite aread_word.
  - cbn [app existsb]. destruct n as [|c r]; [discriminate|]. cbn [expands].
    cbn [ident] in Hn. apply andb_true_iff in Hn as [Hn _]. apply andb_true_iff in Hn as [Hn _].
    replace (is 64 c || is 36 c) with false by (unfold is, isalpha, isupper, islower in *; lia). reflexivity.
  - apply ident_chars in Hn. rewrite forallb_forall in *. intros c Hc. specialize (Hn c Hc).
    unfold mem, A_SEPS, BLANK, QUOTE. cbn [existsb]. rewrite !eqb_code by lia.
    unfold isalpha, isupper, islower, isdigit in Hn. lia.
  - unfold A_MAX_ARG. cbn [length]. lia.
  - destruct n; discriminate.
Qed.

Lemma vtomsq_word w : w <> [] -> forallb (fun c => negb (mem B_SEPS c) && negb (Ascii.eqb c QUOTE)) w = true ->
  forall n, vtomsq_n (S n) B_SEPS w = [w].
Proof.
  intros Hne Hw n. destruct w as [|c w]; [congruence|]. cbn [vtomsq_n].
  pose proof Hw as Hw'. cbn [forallb] in Hw'. apply andb_true_iff in Hw' as [Hc _]. apply andb_true_iff in Hc as [Hc1 Hc2].
  apply negb_true_iff in Hc1, Hc2. cbn [span]. rewrite Hc1. cbn [snd]. rewrite Hc2.
  assert (span (fun d => negb (mem B_SEPS d)) (c :: w) = (c :: w, [])) as Hsp.
  { apply span_word_nil. rewrite forallb_forall in *. intros d Hd. specialize (Hw d Hd).
    apply andb_true_iff in Hw. apply Hw. }
  cbn [span] in Hsp. rewrite Hc1 in Hsp. cbn [negb] in *. rewrite Hsp, Hc1. reflexivity.
Qed.
Lemma vtomsq_two w v : w <> [] -> v <> [] ->
  forallb (fun c => negb (mem B_SEPS c) && negb (Ascii.eqb c QUOTE)) w = true ->
  forallb (fun c => negb (mem B_SEPS c) && negb (Ascii.eqb c QUOTE)) v = true ->
  vtomsq B_SEPS (w ++ BLANK :: v) = [w; v].
Proof.
  intros Hne Hnv Hw Hv. unfold vtomsq. destruct w as [|c w]; [congruence|]. cbn [vtomsq_n app].
  pose proof Hw as Hw'. cbn [forallb] in Hw'. apply andb_true_iff in Hw' as [Hc _]. apply andb_true_iff in Hc as [Hc1 Hc2].
  apply negb_true_iff in Hc1, Hc2. cbn [span]. rewrite Hc1. cbn [snd]. rewrite Hc2.
  assert (span (fun d => negb (mem B_SEPS d)) ((c :: w) ++ BLANK :: v) = (c :: w, BLANK :: v)) as Hsp.
  { apply span_word; [|reflexivity]. rewrite forallb_forall in *. intros d Hd. specialize (Hw d Hd).
    apply andb_true_iff in Hw. apply Hw. }
  cbn [span app] in Hsp. rewrite Hc1 in Hsp. cbn [negb] in *. rewrite Hsp, Hc1. cbn [negb]. f_equal.
  cbn [length]. rewrite app_length. cbn [length]. rewrite Nat.add_succ_r.
  apply vtomsq_word; assumption.
Qed.
Lemma word_seps l : word l = true -> forallb (fun c => negb (mem B_SEPS c) && negb (Ascii.eqb c QUOTE)) l = true.
Proof.
  unfold word. rewrite andb_true_iff. intros [_ H]. rewrite forallb_forall in *. intros c Hc. specialize (H c Hc).
  unfold mem, B_SEPS, BLANK, QUOTE. cbn [existsb]. rewrite !eqb_code by lia.
  unfold isalpha, isupper, islower, isdigit in H. lia.
Qed.
Lemma sqz_word l : word l = true -> sqz l = l.
Proof.
  intros H. apply word_inked in H. unfold sqz, inked in *. induction l as [|c l IH]; [reflexivity|].
  cbn [forallb filter] in *. apply andb_true_iff in H as [Hc Hl]. rewrite IH by exact Hl.
  replace (is 32 c) with false by (unfold is; lia). reflexivity.
Qed.

Lemma goto_label_ok id prog pc (s : rep) l : forallb stmt_ok prog = true -> word l = true ->
  loaded id (map line_of prog) pc s ->
  exists s', goto_label (S2L "label") l s =
     Done (match after_label l prog with Some _ => 0 | None => -3 end) s' /\
     exists p, s' = at_ id {| rf_lines := map line_of prog; rf_pos := p |} s /\
       forall i, after_label l prog = Some i -> p = i.
Proof.
  intros Hok Hl Hld. pose proof Hld as (H1 & H2 & _). rewrite after_label_target. unfold goto_label, bind at 1, current. rewrite H2.
  unfold bind at 1, file_of. rewrite H1. cbn [str_eqb]. unfold bind at 1.
  change (str_eqb (S2L "label") (S2L "label")) with true. cbv iota.
  rewrite (set_pos_at id _ 0 s H1). cbn [rf_lines].
  rewrite sqz_word by exact Hl.
  rewrite (find_label_spec id (S2L "label") (to_lower l) prog (or_introl eq_refl) Hok O)
    by first [rewrite map_length; lia | eapply loaded_at; exact Hld].
  cbn [skipn]. destruct (after_target _ _ prog) as [i|].
  - eexists. split; [reflexivity|]. exists i. rewrite at_at. split; [reflexivity|]. congruence.
  - destruct (Nat.ltb 0 (length prog)); eexists; (split; [reflexivity|]); eexists; rewrite ?at_at; (split; [reflexivity|discriminate]).
Qed.

Lemma jump_ok id prog (s0 s : rep) (c : conf) l name arg :
  forallb stmt_ok prog = true -> word l = true -> rel s c -> frame id s0 s ->
  (exists pc, loaded id (map line_of prog) pc s) ->
  exists rc s1 pc1, goto_label (S2L "label") l s = Done rc s1 /\ rel s1 c /\ loaded id (map line_of prog) pc1 s1 /\
    frame id s0 s1 /\ jump prog l c = returns false name arg rc pc1 c.
Proof.
  intros Hok Hl Hr Hf [pc Hld].
  destruct (goto_label_ok id prog pc s l Hok Hl Hld) as (s' & Hg & p & -> & Hp).
  eexists _, _, p. split; [exact Hg|]. split; [apply rel_at, Hr|]. split; [eapply loaded_at, Hld|].
  split; [eapply frame_trans; [exact Hf|apply frame_at]|].
  unfold jump. destruct (after_label l prog) as [i|].
  - rewrite (Hp i eq_refl). reflexivity.
  - reflexivity.
Qed.

Lemma without_seps v : without [32; 44; 34] v = true -> printable v = true ->
  forallb (fun c => negb (mem B_SEPS c) && negb (Ascii.eqb c QUOTE)) v = true.
Proof.
  unfold without, printable. rewrite !forallb_forall. intros H Hp c Hc. specialize (H c Hc). specialize (Hp c Hc).
  apply negb_true_iff, among_false in H. cbn in H.
  unfold mem, B_SEPS, BLANK, QUOTE. cbn [existsb]. rewrite !eqb_code by lia. lia.
Qed.
Lemma inked_of v : without [32; 44; 34] v = true -> printable v = true -> inked v = true.
Proof.
  unfold without, printable, inked. rewrite !forallb_forall. intros H Hp c Hc. specialize (H c Hc). specialize (Hp c Hc).
  apply negb_true_iff, among_false in H. cbn in H. lia.
Qed.
Lemma inked_app a b : inked (a ++ b) = inked a && inked b.
Proof. apply forallb_app. Qed.

Lemma skipn_plus {A} b : forall a (l : list A), skipn a (skipn b l) = skipn (b + a) l.
Proof. induction b as [|b IH]; intros a [|x l]; try reflexivity; [destruct a; reflexivity|]. cbn. apply IH. Qed.
Lemma digits_inked k : 0 <= k -> inked (to_string k) = true.
Proof.
  intros Hk. unfold to_string. replace (k <? 0) with false by lia. pose proof (dec_nonneg_digits k Hk) as H.
  unfold inked. rewrite forallb_forall. rewrite Forall_forall in H. intros c Hc. specialize (H c Hc).
  unfold isdigit in H. lia.
Qed.

Lemma stmt_follows R R' id prog pc s c st :
  forallb stmt_ok prog = true -> nth_error prog pc = Some st ->
  f_exec R = exec_F E R' ->
  rel s c -> loaded id (map line_of prog) (S pc) s ->
  forallb (piece_ok (reading_of E c)) (written st) = true ->
  follows id (map line_of prog) s
    (line_F E R id (value (reading_of E c) (written st)) s) (step E prog pc c).
Proof.
  intros Hok Hst HR Hr Hl Hp. unfold step. rewrite Hst, Hp. cbn [negb].
  set (g := reading_of E c) in *.
  assert (Hs_ok : stmt_ok st = true).
  { rewrite forallb_forall in Hok. apply Hok. eapply nth_error_In; eauto. }
  unfold stmt_ok in Hs_ok. apply andb_true_iff in Hs_ok as [_ Hs].
  destruct st as [ps|ps|name ps|name|l|l [ps|]|ig name ps|p|k| | |i ps|i|name fs| |name ps]; cbn [written];
    rewrite ?value_app, ?value_lits.
  - (* text *)
    destruct (texty (value g ps)) eqn:Ht; [|exact I].
    unfold line_F.
    assert (is_command (value g ps) = false) as ->.
    { destruct (value g ps) as [|d [|e t]]; auto; apply texty_head in Ht; cbn; rewrite Ht; reflexivity. }
    unfold bind, modify, ret. eexists. split; [reflexivity|]. split; [apply rel_event, Hr|].
    split; [exact Hl|]. apply frame_event, frame_refl.
  - (* comment *) exists s. split; [reflexivity|]. split; [exact Hr|]. split; [exact Hl|apply frame_refl].
  - (* define *)
    destruct (printable (value g ps)) eqn:Hv; [|exact I]. set (v := value g ps) in *.
    assert (Hpr : printable (name ++ BLANK :: v) = true).
    { apply printable_app. split; [apply inked_printable, ident_inked, Hs|apply printable_cons; split; [cbn; lia|exact Hv]]. }
    change (S2L "$define " ++ name ++ [BLANK]) with (chr 36 :: S2L "define" ++ BLANK :: name ++ [BLANK]).
    cbn [app]. repeat (rewrite <- app_assoc; cbn [app]).
    pose proof (line_command R id (map line_of prog) (S pc) s
      (set_macros (put (r_macros s) name (shave v)) s) (with_macro name (Some (shave v)) c)
      (S2L "define") (BLANK :: name ++ BLANK :: v) (shave (name ++ BLANK :: v)) true 0 false) as H.
    apply H; clear H.
    + reflexivity.
    + cbn; lia.
    + apply splitline_word; [reflexivity|cbn; lia|exact Hpr].
    + rewrite HR. change (exec_F E R' (S2L "define") ?a ?b) with (@define W a). apply define_ok; assumption.
    + apply (rel_macros s c _ _ Hr). intros k. rewrite lookup_put. rewrite (rl_macro s c Hr). reflexivity.
    + exact Hl.
    + constructor; reflexivity.
  - (* undef *)
    pose proof (ident_inked name Hs) as Hi.
    change (S2L "$undef " ++ name) with (chr 36 :: S2L "undef" ++ BLANK :: name).
    assert (Hex : exists rc s1, undef_loop [name] s = Done rc s1 /\ (rc = 0 \/ rc = 1) /\
       rel s1 (with_macro name None c) /\ loaded id (map line_of prog) (S pc) s1 /\ frame id s s1).
    { cbn [undef_loop]. unfold bind, undef_1, macro. rewrite key_ident by exact Hs.
      destruct (lookup (r_macros s) name) as [u|] eqn:Hlk.
      - eexists 1, _. split; [reflexivity|]. split; [auto|]. split; [|split; [exact Hl|constructor; reflexivity]].
        apply (rel_macros s c _ _ Hr). intros k. rewrite lookup_remove, (rl_macro s c Hr). reflexivity.
      - exists 0, s. split; [reflexivity|]. split; [auto|]. split; [|split; [exact Hl|apply frame_refl]].
        destruct Hr. constructor; cbn; auto. intros k. destruct (str_eqb name k) eqn:He; [|auto].
        apply str_eqb_iff in He. subst k. exact Hlk. }
    destruct Hex as (rc & s1 & Hex & Hrc & Hr1 & Hl1 & Hf1).
    pose proof (line_command R id (map line_of prog) (S pc) s s1 (with_macro name None c)
      (S2L "undef") (BLANK :: name) name true rc false) as H.
    cbn [app] in H. replace (returns false (S2L "undef") name rc (S pc) (with_macro name None c))
      with (Next (S pc) (with_macro name None c)) in H by (destruct Hrc; subst rc; reflexivity).
    apply H; clear H; auto.
    + cbn; lia.
    + rewrite splitline_word; [|reflexivity|cbn; lia|apply inked_printable, Hi]. rewrite shave_inked by exact Hi. reflexivity.
    + rewrite HR. change (exec_F E R' (S2L "undef") (Arg name true) ?b) with (@with_words W (Arg name true) undef_loop).
      unfold with_words. rewrite ainit_ident by exact Hs. exact Hex.
  - (* label *)
    pose proof (word_inked l Hs) as Hi.
    change (S2L "$label " ++ l) with (chr 36 :: S2L "label" ++ BLANK :: l).
    pose proof (line_command R id (map line_of prog) (S pc) s s c
      (S2L "label") (BLANK :: l) l true 0 false) as H. apply H; clear H; auto.
    + cbn; lia.
    + rewrite splitline_word; [|reflexivity|cbn; lia|apply inked_printable, Hi]. rewrite shave_inked by exact Hi. reflexivity.
    + rewrite HR. reflexivity.
    + apply frame_refl.
  - (* goto with a condition *)
    set (v := value g ps) in *.
    destruct (nonempty v && without [32; 44; 34] v && printable v) eqn:Hv; [|exact I].
    apply andb_true_iff in Hv as [Hv Hpv]. apply andb_true_iff in Hv as [Hnv Hsv].
    assert (Hne : v <> []) by (destruct v; [discriminate|congruence]).
    destruct (atoi v) as [z|] eqn:Hz; [|exact I].
    change (S2L "$goto " ++ l ++ [BLANK]) with (chr 36 :: S2L "goto" ++ BLANK :: l ++ [BLANK]).
    cbn [app]. repeat (rewrite <- app_assoc; cbn [app]).
    assert (Hsh : shave (l ++ BLANK :: v) = l ++ BLANK :: v).
    { rewrite shave_word by (try apply word_inked; auto; apply word_ne, Hs).
      rewrite rstrip_inked by (apply inked_of; assumption). destruct v; [congruence|reflexivity]. }
    assert (Hspl : splitline (S2L "goto" ++ BLANK :: l ++ BLANK :: v) = Split (S2L "goto") (l ++ BLANK :: v) true).
    { rewrite splitline_word; [rewrite Hsh; reflexivity|reflexivity|cbn; lia|].
      apply printable_app. split; [apply inked_printable, word_inked, Hs|apply printable_cons; split; [cbn; lia|exact Hpv]]. }
    assert (Hgo : f_exec R (S2L "goto") (Arg (l ++ BLANK :: v) true) (chr 36) =
      if (z =? 0) || (z =? -1) then ret z else goto_label (S2L "label") l).
    { rewrite HR. change (exec_F E R' (S2L "goto") ?a ?b) with (@goto W a). unfold goto, with_text.
      rewrite vtomsq_two; [|apply word_ne, Hs|exact Hne|apply word_seps, Hs|apply without_seps; assumption].
      rewrite Hz. reflexivity. }
    destruct (z =? 0) eqn:Hz0; [|destruct (z =? -1) eqn:Hz1].
    + pose proof (line_command R id (map line_of prog) (S pc) s s c (S2L "goto") (BLANK :: l ++ BLANK :: v)
        (l ++ BLANK :: v) true 0 false) as H. apply H; clear H; auto; try reflexivity.
      * cbn; lia.
      * rewrite Hgo. cbn. unfold ret. f_equal. lia.
      * apply frame_refl.
    + pose proof (line_command R id (map line_of prog) (S pc) s s c (S2L "goto") (BLANK :: l ++ BLANK :: v)
        (l ++ BLANK :: v) true (-1) false) as H. apply H; clear H; auto; try reflexivity.
      * cbn; lia.
      * rewrite Hgo. cbn. unfold ret. f_equal. lia.
      * apply frame_refl.
    + cbn [orb] in Hgo.
      destruct (jump_ok id prog s s c l (S2L "goto") (l ++ BLANK :: v) Hok Hs Hr (frame_refl id s) (ex_intro (fun p => loaded id (map line_of prog) p s) _ Hl))
        as (rc & s1 & pc1 & Hg & Hr1 & Hl1 & Hf1 & ->).
      pose proof (line_command R id (map line_of prog) pc1 s s1 c (S2L "goto") (BLANK :: l ++ BLANK :: v)
        (l ++ BLANK :: v) true rc false) as H. apply H; clear H; auto; try reflexivity.
      * cbn; lia.
      * rewrite Hgo. exact Hg.
  - (* goto *)
    pose proof (word_inked l Hs) as Hi.
    change (S2L "$goto " ++ l) with (chr 36 :: S2L "goto" ++ BLANK :: l).
    destruct (jump_ok id prog s s c l (S2L "goto") l Hok Hs Hr (frame_refl id s) (ex_intro (fun p => loaded id (map line_of prog) p s) _ Hl))
      as (rc & s1 & pc1 & Hg & Hr1 & Hl1 & Hf1 & ->).
    pose proof (line_command R id (map line_of prog) pc1 s s1 c
      (S2L "goto") (BLANK :: l) l true rc false) as H. apply H; clear H; auto.
    + cbn; lia.
    + rewrite splitline_word; [|reflexivity|cbn; lia|apply inked_printable, Hi]. rewrite shave_inked by exact Hi. reflexivity.
    + rewrite HR. change (exec_F E R' (S2L "goto") ?a ?b) with (@goto W a). unfold goto, with_text.
      unfold vtomsq. rewrite vtomsq_word by (try apply word_seps; auto; apply word_ne, Hs). exact Hg.
  - (* command *)
    destruct (printable (value g ps)) eqn:Hv; [|exact I]. set (v := value g ps) in *.
    apply andb_true_iff in Hs as [Hs Hres]. apply andb_true_iff in Hs as [Hw Hlen].
    apply negb_true_iff in Hres.
    assert (Hline : ([chr 36] ++ (if ig then [chr 45] else []) ++ name ++ [BLANK]) ++ v =
                    chr 36 :: (if ig then [chr 45] else []) ++ name ++ BLANK :: v).
    { cbn [app]. rewrite <- !app_assoc. reflexivity. }
    rewrite Hline. clear Hline.
    assert (Hex : f_exec R name (Arg (shave v) true) (chr 36) = external E (to_lower name) (Arg (shave v) true) (chr 36)).
    { rewrite HR. apply exec_name; assumption. }
    unfold external in Hex.
    destruct (e_cmd E (to_lower name) (chr 36)) as [f|] eqn:Hcmd.
    + destruct (f (shave v) (c_world c)) as [[rc|] w] eqn:Hf; [|exact I].
      eapply line_command; auto; try reflexivity.
      * lia.
      * apply splitline_word; auto. lia.
      * rewrite Hex. rewrite (rl_world s c Hr), Hf. reflexivity.
      * destruct Hr. constructor; cbn; auto. congruence.
      * exact Hl.
      * constructor; reflexivity.
    + change (fails ig name (shave v) (S pc) c) with (returns ig name (shave v) (-1) (S pc) c).
      eapply line_command; auto.
      * lia.
      * apply splitline_word; auto. lia.
      * rewrite Hex. reflexivity.
      * exact Hr.
      * exact Hl.
      * apply frame_refl.
  - (* onerror *)
    change (S2L "$onerror " ++ policy_word p) with (chr 36 :: S2L "onerror" ++ BLANK :: policy_word p).
    pose proof (line_command R id (map line_of prog) (S pc) s (set_rt (policy_code p) s) (with_policy p c)
      (S2L "onerror") (BLANK :: policy_word p) (policy_word p) true 0 false) as H. apply H; clear H; auto.
    + cbn; lia.
    + destruct p; reflexivity.
    + rewrite HR. destruct p; reflexivity.
    + destruct Hr. constructor; cbn; auto.
    + constructor; reflexivity.
  - (* shift *)
    assert (Hk : 0 <= k < 2 ^ 30) by lia.
    destruct (k <=? Z.of_nat (length (c_args c))) eqn:Hle; [|exact I].
    pose proof (digits_inked k (proj1 Hk)) as Hi.
    change (S2L "$shift " ++ to_string k) with (chr 36 :: S2L "shift" ++ BLANK :: to_string k).
    pose proof (line_command R id (map line_of prog) (S pc) s (set_args (r_argv s) (r_arg0 s + k) s)
      (with_args (skipn (Z.to_nat k) (c_args c)) c)
      (S2L "shift") (BLANK :: to_string k) (to_string k) true 0 false) as H. apply H; clear H; auto.
    + cbn; lia.
    + rewrite splitline_word; [|reflexivity|cbn; lia|apply inked_printable, Hi]. rewrite shave_inked by exact Hi. reflexivity.
    + rewrite HR. change (exec_F E R' (S2L "shift") ?a ?b) with (@shift W a). unfold shift, with_text.
      rewrite strip_rstrip by (apply inked_printable, Hi). rewrite rstrip_inked by exact Hi.
      pose proof (atoi_dec k [] ltac:(change (2 ^ 31) with (2 ^ 30 + 2 ^ 30); lia) I) as Ha. rewrite app_nil_r in Ha.
      destruct (to_string k) as [|d t] eqn:Ht.
      { unfold to_string in Ht. replace (k <? 0) with false in Ht by lia.
        destruct (dec_nonneg_cons k) as (e & u & He & _); [lia|]. congruence. }
      rewrite Ha. reflexivity.
    + destruct Hr. assert (Hla : length (c_args c) = (length (tl (r_argv s)) - Z.to_nat (r_arg0 s))%nat).
      { rewrite <- rl_args. unfold args_left. apply skipn_length. }
      constructor; cbn; auto; [|lia].
      unfold args_left in *. cbn. rewrite <- rl_args. rewrite skipn_plus. f_equal. lia.
    + constructor; reflexivity.
  - (* return *)
    apply (line_command R id (map line_of prog) (S pc) s s c (S2L "return") [] [] false (-2) false); auto.
    + cbn; lia.
    + rewrite HR. reflexivity.
    + apply frame_refl.
  - (* abort *)
    apply (line_command R id (map line_of prog) (S pc) s s c (S2L "abort") [] [] false (-3) false); auto.
    + cbn; lia.
    + rewrite HR. reflexivity.
    + apply frame_refl.
  - exact I.
  - exact I.
  - exact I.
  - exact I.
  - exact I.
Qed.

(** * Reports *)
(** One line of the loop, from what its execution gives at some level. *)
Lemma loop_line_one id prog pc (s : rep) (c : conf) st m :
  forallb stmt_ok prog = true -> rel s c -> loaded id (map line_of prog) pc s ->
  nth_error prog pc = Some st ->
  forallb (piece_ok (reading_of E c)) (written st) = true ->
  unindent (value (reading_of E c) (written st)) = value (reading_of E c) (written st) ->
  f_loop (level E (S (S m))) id s =
  match line_F E (level E (S m)) id (value (reading_of E c) (written st))
          (at_ id {| rf_lines := map line_of prog; rf_pos := S pc |} s) with
  | Done (Some rt) s' => Done rt s'
  | Done None s' => f_loop (level E (S m)) id s'
  | Thrown s' => Thrown s'
  | Undefined => Undefined
  | Unmodelled => Unmodelled
  | Late => Late
  end.
Proof.
  intros Hok Hr Hl Hst Hp Hun.
  change (f_loop (level E (S (S m))) id s) with (loop_F E (level E (S m)) id s). unfold loop_F, bind.
  assert (Hs_ok : stmt_ok st = true).
  { rewrite forallb_forall in Hok. apply Hok. eapply nth_error_In; eauto. }
  rewrite (read_raw_line id (map line_of prog) pc s (line_of st) Hl).
  2:{ rewrite nth_error_map, Hst. reflexivity. }
  2:{ unfold stmt_ok in Hs_ok. apply andb_true_iff in Hs_ok as [Hg _]. apply negb_true_iff, Hg. }
  set (s1 := at_ id _ s).
  assert (Hr1 : rel s1 c) by (apply rel_at, Hr).
  change (f_expand (level E (S m)) (line_of st)) with (expand_F E (level E m) (source (written st))).
  rewrite (expand_pieces E (level E m) (reading_of E c) (written st) s1 (rel_reads E s1 c Hr1) Hp).
  rewrite indent_id by exact Hun.
  destruct (line_F E (level E (S m)) id _ s1) as [[rt|] s'|s'| | |]; reflexivity.
Qed.
Lemma line_up n m id t (s : rep) r s' : (n <= m)%nat -> line_F E (level E n) id t s = Done r s' ->
  line_F E (level E m) id t s = Done r s'.
Proof.
  intros Hn H. pose proof (line_below E (level E n) (level E m) (level_below E n m Hn) id t s) as [H1|H1]; congruence.
Qed.
Lemma loop_line id prog pc (s : rep) (c : conf) st n o s' :
  forallb stmt_ok prog = true -> rel s c -> loaded id (map line_of prog) pc s ->
  nth_error prog pc = Some st ->
  forallb (piece_ok (reading_of E c)) (written st) = true ->
  unindent (value (reading_of E c) (written st)) = value (reading_of E c) (written st) ->
  line_F E (level E (S n)) id (value (reading_of E c) (written st))
    (at_ id {| rf_lines := map line_of prog; rf_pos := S pc |} s) = Done o s' ->
  forall m, (n <= m)%nat ->
  f_loop (level E (S (S m))) id s = match o with Some rt => Done rt s' | None => f_loop (level E (S m)) id s' end.
Proof.
  intros Hok Hr Hl Hst Hp Hun Hline m Hm.
  rewrite (loop_line_one id prog pc s c st m Hok Hr Hl Hst Hp Hun).
  rewrite (line_up (S n) (S m) id _ _ o s' ltac:(lia) Hline). destruct o; reflexivity.
Qed.
Lemma loop_step id prog pc s c :
  forallb stmt_ok prog = true -> rel s c -> loaded id (map line_of prog) pc s ->
  match step E prog pc c with
  | Stuck => True
  | Next pc' c' => exists s', (forall m, f_loop (level E (S (S m))) id s = f_loop (level E (S m)) id s') /\
      rel s' c' /\ loaded id (map line_of prog) pc' s' /\ frame id s s'
  | Stop rc c' => exists s', (forall m, f_loop (level E (S (S m))) id s = Done rc s') /\
      rel s' c' /\ (exists p, loaded id (map line_of prog) p s') /\ frame id s s'
  end.
Proof.
  intros Hok Hr Hl.
  destruct (nth_error prog pc) as [st|] eqn:Hst.
  - set (s1 := at_ id {| rf_lines := map line_of prog; rf_pos := S pc |} s).
    assert (Hr1 : rel s1 c) by (apply rel_at, Hr).
    assert (Hl1 : loaded id (map line_of prog) (S pc) s1) by (eapply loaded_at, Hl).
    assert (Hf1 : frame id s s1) by (apply frame_at).
    destruct (forallb (piece_ok (reading_of E c)) (written st)) eqn:Hp.
    2:{ unfold step. rewrite Hst, Hp. exact I. }
    pose proof (stmt_follows (level E 1) (level E 0) id prog pc s1 c st Hok Hst eq_refl Hr1 Hl1 Hp) as Hfo.
    assert (Hun : step E prog pc c <> Stuck ->
      unindent (value (reading_of E c) (written st)) = value (reading_of E c) (written st)).
    { unfold step. rewrite Hst, Hp. cbn [negb].
      destruct st as [ps|ps|name ps|name|l|l [ps|]|ig name ps|p|k| | |i ps|i|name fs| |name ps]; cbn [written];
        rewrite ?value_app, ?value_lits; intros Hns; try (apply unindent_dollar; reflexivity).
      destruct (texty (value (reading_of E c) ps)) eqn:Ht; [|congruence]. apply unindent_texty, Ht. }
    destruct (step E prog pc c) as [pc' c'|rc c'|] eqn:Hstep; [| |exact I].
    + destruct Hfo as (s' & Hrun & Hr' & Hl' & Hf'). exists s'. split.
      * intros m. apply (loop_line id prog pc s c st 0 None s' Hok Hr Hl Hst Hp (Hun ltac:(discriminate)) Hrun). lia.
      * split; [exact Hr'|]. split; [exact Hl'|]. eapply frame_trans; eauto.
    + destruct Hfo as (s' & Hrun & Hr' & Hl' & Hf'). exists s'. split.
      * intros m. apply (loop_line id prog pc s c st 0 (Some rc) s' Hok Hr Hl Hst Hp (Hun ltac:(discriminate)) Hrun). lia.
      * split; [exact Hr'|]. split; [exact Hl'|]. eapply frame_trans; eauto.
  - unfold step. rewrite Hst. exists s. split.
    + intros m. change (f_loop (level E (S (S m))) id s) with (loop_F E (level E (S m)) id s). unfold loop_F, bind.
      rewrite (read_raw_end id (map line_of prog) pc s Hl) by (rewrite nth_error_map, Hst; reflexivity). reflexivity.
    + split; [exact Hr|]. split; [eauto|apply frame_refl].
Qed.

Lemma loop_runs prog id : forallb stmt_ok prog = true ->
  forall k pc s c rc c', rel s c -> loaded id (map line_of prog) pc s ->
  runs E prog k pc c = Stop rc c' ->
  exists s', f_loop (level E (S k)) id s = Done rc s' /\ rel s' c' /\
    (exists p, loaded id (map line_of prog) p s') /\ frame id s s'.
Proof.
  intros Hok k. induction k as [|k IH]; intros pc s c rc c' Hr Hl Hrun; [discriminate|].
  cbn [runs] in Hrun. pose proof (loop_step id prog pc s c Hok Hr Hl) as Hs.
  destruct (step E prog pc c) as [pc1 c1|rc1 c1|]; [| |discriminate].
  - destruct Hs as (s1 & He & Hr1 & Hl1 & Hf1).
    destruct (IH pc1 s1 c1 rc c' Hr1 Hl1 Hrun) as (s' & He' & Hr' & Hl' & Hf').
    exists s'. rewrite He. split; [exact He'|]. split; [exact Hr'|]. split; [exact Hl'|]. eapply frame_trans; eauto.
  - injection Hrun as <- <-. destruct Hs as (s' & Hs & Hs'). exists s'. split; [apply Hs|exact Hs'].
Qed.

Lemma loop_never prog id : forallb stmt_ok prog = true ->
  forall n pc s c, rel s c -> loaded id (map line_of prog) pc s ->
  (forall k, exists pc' c', runs E prog k pc c = Next pc' c') ->
  f_loop (level E n) id s = Late.
Proof.
  intros Hok n. destruct n as [|n]; [reflexivity|].
  induction n as [|n IH]; intros pc s c Hr Hl Hrun.
  - destruct (Hrun 1%nat) as (pc' & c' & H1). cbn [runs] in H1.
    destruct (step E prog pc c) as [pc1 c1| |] eqn:Hst; try discriminate. clear H1.
    unfold step in Hst. destruct (nth_error prog pc) as [st|] eqn:Hn; [|discriminate].
    change (f_loop (level E 1) id s) with (loop_F E (level E 0) id s). unfold loop_F, bind at 1.
    rewrite (read_raw_line id (map line_of prog) pc s (line_of st) Hl).
    + reflexivity.
    + rewrite nth_error_map, Hn. reflexivity.
    + rewrite forallb_forall in Hok. pose proof (Hok st (nth_error_In _ _ Hn)) as Hs_ok.
      unfold stmt_ok in Hs_ok. apply andb_true_iff in Hs_ok as [Hg _]. apply negb_true_iff, Hg.
  - pose proof (loop_step id prog pc s c Hok Hr Hl) as Hs.
    destruct (Hrun 1%nat) as (pc' & c' & H1). cbn [runs] in H1.
    destruct (step E prog pc c) as [pc1 c1| |] eqn:Hst; try discriminate. clear H1 pc' c'.
    destruct Hs as (s1 & He & Hr1 & Hl1 & Hf1). rewrite He. apply (IH pc1 s1 c1 Hr1 Hl1).
    intros k. destruct (Hrun (S k)) as (pc2 & c2 & H2). cbn [runs] in H2. rewrite Hst in H2. eauto.
Qed.

Lemma simple_chars w : simple_word w = true ->
  forallb (fun c => negb (mem A_SEPS c) && negb (Ascii.eqb c QUOTE)) w = true /\ (1 <= length w <= 128)%nat /\ expands w = false.
Proof.
  unfold simple_word. rewrite !andb_true_iff. intros [[[H1 H2] H3] H4]. split; [|split].
  - rewrite forallb_forall in *. intros c Hc. specialize (H2 c Hc). apply negb_true_iff, among_false in H2. cbn in H2.
    unfold mem, A_SEPS, BLANK, QUOTE. cbn [existsb]. rewrite !eqb_code by lia. lia.
  - destruct w; [discriminate|]. cbn [length]. apply Nat.leb_le in H3. cbn [length] in H3. lia.
  - destruct w as [|c w]; [reflexivity|]. apply first_not_head in H4. cbn in H4. unfold expands, is. lia.
Qed.
Lemma aread_next s r : forall w, forallb (fun c => negb (mem A_SEPS c) && negb (Ascii.eqb c QUOTE)) s = true ->
  (length w + length s <= A_MAX_ARG)%nat -> w ++ s <> [] ->
  aread (s ++ BLANK :: r) w false = (w ++ s) :: aread r [] false.
Proof.
  induction s as [|c s IH]; intros w Hs Hl Hne.
  - rewrite app_nil_r in *. destruct w; [congruence|reflexivity].
  - cbn [forallb] in Hs. apply andb_true_iff in Hs as [Hc Hs]. apply andb_true_iff in Hc as [Hc1 Hc2].
    cbn [app aread negb andb]. apply negb_true_iff in Hc1. rewrite Hc1. cbn [length] in Hl.
    replace (Nat.ltb (length w) A_MAX_ARG) with true by lia.
    apply negb_true_iff in Hc2. rewrite Hc2. rewrite IH.
    + rewrite <- app_assoc. reflexivity.
    + exact Hs.
    + rewrite app_length. cbn [length]. lia.
    + rewrite <- app_assoc. destruct w; discriminate.
Qed.
Lemma ainit_words l : forallb simple_word l = true -> ainit (joined BLANK l) = Some l.
Proof.
  intros H. assert (Ha : aread (joined BLANK l) [] false = l).
  { induction l as [|w [|w' l] IH]; [reflexivity| |].
    - cbn [joined]. cbn [forallb] in H. apply andb_true_iff in H as [H _]. apply simple_chars in H as (H1 & H2 & _).
      rewrite aread_word; [reflexivity|exact H1|unfold A_MAX_ARG; cbn [length]; lia|destruct w; [cbn in H2; lia|discriminate]].
    - cbn [joined]. cbn [forallb] in H. apply andb_true_iff in H as [H Ht]. apply simple_chars in H as (H1 & H2 & _).
      rewrite aread_next; [|exact H1|unfold A_MAX_ARG; cbn [length]; lia|destruct w; [cbn in H2; lia|discriminate]].
      cbn [app]. f_equal. apply IH, Ht. }
  unfold ainit. rewrite Ha.
  assert (Hex : existsb expands l = false).
  { clear Ha. induction l as [|w l IH]; [reflexivity|]. cbn [forallb existsb] in *.
    apply andb_true_iff in H as [H Ht]. apply simple_chars in H as (_ & _ & ->). apply IH, Ht. }
  rewrite Hex. replace (expands (joined BLANK l)) with false; [reflexivity|].
  destruct l as [|w l]; [reflexivity|]. cbn [existsb] in Hex. apply orb_false_iff in Hex as [Hw _].
  cbn [forallb] in H. apply andb_true_iff in H as [H _]. apply simple_chars in H as (_ & H2 & _).
  destruct w as [|c w]; [cbn in H2; lia|]. destruct l; cbn [joined app expands] in *; symmetry; exact Hw.
Qed.

(** From the entry point to the first line. *)
Definition entered (s : rep) (argv : list str) (lines : list str) : rep :=
  let s1 := if r_depth s =? 0 then set_world (e_top E (r_world s)) s else s in
  let s2 := set_depth (r_depth s + 1) (set_args argv 0 s1) in
  set_cur (Some (r_next s)) (set_files (file_set (r_files s) (r_next s) {| rf_lines := lines; rf_pos := O |}) (S (r_next s)) s2).
Definition left_ (s : rep) (s1 : rep) : rep :=
  let s2 := add_event (Text [chr 10]) s1 in
  let s3 := set_cur None (set_files (file_del (r_files s2) (r_next s)) (r_next s2) s2) in
  let s4 := set_args (r_argv s) (r_arg0 s) (set_depth (r_depth s1 - 1) s3) in
  if r_depth s1 - 1 =? 0 then set_macros [] s4 else s4.

Lemma run_report_loop n s name args lines :
  forallb simple_word (name :: args) = true ->
  e_file E name (if r_depth s =? 0 then e_top E (r_world s) else r_world s) = Some lines ->
  run_report E n (joined BLANK (name :: args)) s =
  match f_loop (level E n) (r_next s) (entered s (name :: args) lines) with
  | Done rc s1 => Done rc (left_ s s1)
  | Thrown s1 => Thrown s1
  | Undefined => Undefined
  | Unmodelled => Unmodelled
  | Late => Late
  end.
Proof.
  intros Hw Hf. unfold run_report, report_exec, with_words. rewrite ainit_words by exact Hw.
  unfold bind at 1, get at 1. unfold bind at 1, modify at 1.
  unfold bind at 1, report_file, bind at 1, get at 1.
  set (s1 := set_depth _ _).
  assert (Hw1 : r_world s1 = if r_depth s =? 0 then e_top E (r_world s) else r_world s).
  { unfold s1. destruct (r_depth s =? 0); reflexivity. }
  rewrite Hw1, Hf. unfold bind at 1, new_file.
  assert (Hn1 : r_next s1 = r_next s) by (unfold s1; destruct (r_depth s =? 0); reflexivity).
  rewrite Hn1. unfold bind at 1. unfold exec_tbl, bind at 1, get at 1. unfold bind at 1, modify at 1.
  replace (set_cur (Some (r_next s)) _) with (entered s (name :: args) lines).
  2:{ unfold entered, s1. destruct (r_depth s =? 0); reflexivity. }
  unfold bind at 1. destruct (f_loop (level E n) (r_next s) (entered s (name :: args) lines)) as [rc s2|s2| | |]; try reflexivity.
Qed.

Lemma entered_rel s p name args lines :
  r_rt s = policy_code p -> Z.of_nat (length args) < 2 ^ 30 - 1 ->
  rel (entered s (name :: args) lines) (start E s p args).
Proof.
  intros Hp Hl. unfold entered, start. constructor; cbn; destruct (r_depth s =? 0); cbn; auto; try lia; try discriminate.
Qed.
Lemma entered_loaded s argv lines : numbered s -> loaded (r_next s) lines 0 (entered s argv lines).
Proof.
  intros H. split; [cbn; rewrite Nat.eqb_refl; reflexivity|]. split; [reflexivity|].
  unfold numbered, entered. cbn [r_files r_next set_cur set_files]. constructor; [cbn; lia|].
  unfold numbered in H. unfold file_del. rewrite Forall_forall in *. intros e He. apply filter_In in He.
  destruct He as [He _]. specialize (H e He). lia.
Qed.
Lemma left_leaves s argv lines s1 c :
  rel s1 c -> frame (r_next s) (entered s argv lines) s1 -> leaves s c (left_ s s1).
Proof.
  intros Hr Hf. destruct Hr, Hf.
  assert (Hd : r_depth s1 - 1 = r_depth s).
  { rewrite fr_depth. unfold entered. cbn. lia. }
  unfold left_. rewrite Hd.
  assert (He : forall (A : Type) (f : rep -> A), (forall r x, f (set_cur x r) = f r) -> True) by auto.
  clear He.
  unfold entered in *.
  destruct (r_depth s =? 0) eqn:H0; constructor; cbn in *; try rewrite H0; cbn; auto; try congruence; try lia.
Qed.
End Refine.
