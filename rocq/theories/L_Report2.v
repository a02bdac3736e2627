(** Lemmas on the pieces of a line. *)
From Coq Require Import ZArith Ascii String List Bool Lia ZifyBool.
From Verif Require Import M_Base M_Names M_Lex M_Kdb M_Grep M_Report S_Report L_Time L_Report.
Import ListNotations.
Open Scope Z_scope.

Lemma code_chr_eq c z : 0 <= z < 256 -> code c = z <-> c = chr z.
Proof.
  intros Hz. unfold code, chr. split; intros H.
  - rewrite <- H, N2Z.id. symmetry. apply ascii_N_embedding.
  - subst c. rewrite N_ascii_embedding by lia. lia.
Qed.
Lemma eqb_code c z : 0 <= z < 256 -> Ascii.eqb c (chr z) = (code c =? z).
Proof.
  intros Hz. apply eq_true_iff_eq. rewrite Ascii.eqb_eq, Z.eqb_eq. symmetry. apply code_chr_eq; exact Hz.
Qed.
Lemma among_false c l : among c l = false <-> ~ In (code c) l.
Proof.
  unfold among. induction l as [|z l IH]; cbn; [tauto|]. rewrite orb_false_iff, IH, Z.eqb_neq. intuition congruence.
Qed.
Lemma among_true c l : among c l = true <-> In (code c) l.
Proof.
  unfold among. induction l as [|z l IH]; cbn; [intuition congruence|]. rewrite orb_true_iff, IH, Z.eqb_eq. intuition congruence.
Qed.
Lemma without_Forall l t : without l t = true <-> Forall (fun c => ~ In (code c) l) t.
Proof.
  unfold without. rewrite forallb_forall, Forall_forall. split; intros H c Hc; specialize (H c Hc).
  - apply among_false. apply negb_true_iff, H.
  - apply negb_true_iff, among_false, H.
Qed.
Lemma plain_special t : plain t = true -> existsb special t = false.
Proof.
  unfold plain. rewrite without_Forall. induction 1 as [|c t H _ IH]; [reflexivity|]. cbn [existsb]. rewrite IH, orb_false_r.
  unfold special, is. cbn in H. lia.
Qed.
Lemma lacks_of t z : 0 <= z < 256 -> Forall (fun c => code c <> z) t -> lacks (chr z) t = true.
Proof.
  intros Hz. induction 1 as [|c t H _ IH]; [reflexivity|]. cbn [lacks forallb]. rewrite eqb_code by exact Hz.
  fold (lacks (chr z) t). rewrite IH. lia.
Qed.
Lemma without_lacks l t z : 0 <= z < 256 -> In z l -> without l t = true -> lacks (chr z) t = true.
Proof.
  intros Hz Hin H. apply lacks_of; [exact Hz|]. apply without_Forall in H.
  eapply Forall_impl; [|exact H]. cbn. intros c Hc He. apply Hc. rewrite He. exact Hin.
Qed.
Lemma plain_lacks t : plain t = true -> lacks PERCENT t = true.
Proof. apply without_lacks; [lia|cbn; auto]. Qed.

Lemma mtov_joined l c : mtov l [c] = joined c l.
Proof. induction l as [|w [|w' l] IH]; [reflexivity|reflexivity|]. cbn [mtov joined] in *. rewrite IH. reflexivity. Qed.

Lemma atoi_dec n tl : 0 <= n < 2 ^ 31 -> stops tl -> atoi (to_string n ++ tl) = Some n.
Proof.
  intros Hn Hs. unfold to_string. replace (n <? 0) with false by lia.
  destruct (dec_nonneg_cons n) as (d & r & He & Hd); [lia|].
  unfold atoi.
  assert (Hdc : 48 <= code d <= 57) by (unfold isdigit in Hd; lia).
  rewrite He. cbn [app skip_spaces].
  replace (isspace d) with false by (unfold isspace; lia).
  replace (is 45 d) with false by (unfold is; lia). replace (is 43 d) with false by (unfold is; lia).
  change (d :: r ++ tl) with ((d :: r) ++ tl). rewrite <- He.
  destruct (dec_nonneg_read n 0 0 tl) as (k & _ & Hk & _); [lia|].
  rewrite Hk. rewrite read_digits_stop by exact Hs. cbn [fst].
  replace (0 * 10 ^ Z.of_nat k + n) with n by lia.
  replace ((n <? - 2 ^ 31) || (2 ^ 31 <=? n)) with false by lia. reflexivity.
Qed.

Lemma upper7 c : code c < 128 -> upper_char c = toupper c.
Proof.
  intros H. assert (0 <= code c) by (unfold code; lia).
  unfold upper_char, toupper. destruct (islower c); [reflexivity|].
  assert (F : forall l, forallb (fun z => 128 <=? z) l = true -> existsb (Z.eqb (code c)) l = false).
  { induction l as [|z l IH]; [reflexivity|]. cbn. intros Hl. apply andb_true_iff in Hl.
    rewrite IH by apply Hl. lia. }
  rewrite !F by reflexivity. reflexivity.
Qed.
Lemma code_range c : 0 <= code c < 256.
Proof. unfold code. pose proof (N_ascii_bounded c). lia. Qed.
Lemma code_chr z : 0 <= z < 256 -> code (chr z) = z.
Proof. intros H. apply (code_chr_eq (chr z) z H). reflexivity. Qed.
Lemma isupper_toupper c : isupper (toupper c) = isalpha c.
Proof.
  unfold toupper, isalpha. destruct (islower c) eqn:Hl; [|now rewrite orb_false_r].
  unfold islower, isupper in *. rewrite code_chr; pose proof (code_range c); lia.
Qed.
Lemma modified_ok m f v : modifier m = Some f -> In (code m) [33; 35; 45] -> ascii7 v = true -> f v = modified m v.
Proof.
  intros Hm Hin Hv. unfold modifier, modified, is in *. unfold ascii7 in Hv. rewrite forallb_forall in Hv.
  assert (Hv' : Forall (fun c => code c < 128) v) by (apply Forall_forall; intros c Hc; specialize (Hv c Hc); lia).
  clear Hv. rename Hv' into Hv.
  destruct (code m =? 33); [injection Hm as <-; reflexivity|].
  destruct (code m =? 35).
  { injection Hm as <-. unfold scr_upper, to_upper. induction Hv as [|c v Hc _ IH]; [reflexivity|].
    cbn. rewrite IH, upper7 by exact Hc. reflexivity. }
  destruct (code m =? 45); [|discriminate]. injection Hm as <-.
  unfold asqz. induction Hv as [|c v Hc _ IH]; [reflexivity|]. cbn [filter].
  rewrite IH, upper7, isupper_toupper by exact Hc.
  replace (isdigit c || isalpha c || is 95 c) with (isalpha c || isdigit c || (code c =? 95)); [reflexivity|].
  unfold is. rewrite (orb_comm (isdigit c)). reflexivity.
Qed.

Section Pieces.
Context {W : Type} (E : env W) (R : fns W).

(** The arguments that are left. *)
Definition args_left (s : rep W) : list str := skipn (Z.to_nat (r_arg0 s)) (tl (r_argv s)).
(** The reading of a state. *)
Record reads (s : rep W) (g : reading) : Prop := {
  rd_macro : forall n, g_macro g n = macro s n;
  rd_args : g_args g = args_left s;
  rd_lec : forall t, g_lec g t = e_lec E t (r_world s);
  rd_quotes : g_quotes g = r_nopar s;
  rd_arg0 : 0 <= r_arg0 s <= Z.of_nat (length (tl (r_argv s)));
  rd_ne : r_argv s <> [];
  rd_len : Z.of_nat (length (r_argv s)) < 2 ^ 30
}.

Lemma first_not_head l c t : first_not l (c :: t) = true -> ~ In (code c) l.
Proof. cbn. intros H. apply among_false. destruct (among c l); auto. Qed.

Lemma gmacro_name name s : plain name = true -> not_digit name = true -> first_not [42] name = true ->
  gmacro R name s = Done (macro s name) s.
Proof.
  intros Hp Hd Hf. unfold gmacro, bind. rewrite inner_plain by (apply plain_special; exact Hp).
  unfold get, ret. destruct name as [|c name]; [reflexivity|].
  apply first_not_head in Hf. cbn in Hd, Hf. replace (isdigit c) with false by (destruct (isdigit c); auto).
  replace (is 42 c) with false by (unfold is; lia). reflexivity.
Qed.

Lemma digits_plain t : Forall (fun c => isdigit c = true) t -> plain t = true.
Proof. intros H. apply without_Forall. eapply Forall_impl; [|exact H]. intros c Hc. unfold isdigit in Hc. cbn. lia. Qed.

Lemma gmacro_num k s : 1 <= k -> k + r_arg0 s < 2 ^ 31 ->
  0 <= r_arg0 s <= Z.of_nat (length (tl (r_argv s))) -> r_argv s <> [] ->
  gmacro R (to_string k) s =
  Done (if Z.of_nat (length (args_left s)) <? k then None
        else Some (nth (Z.to_nat (k - 1)) (args_left s) [])) s.
Proof.
  intros Hk Hb Ha Hne. assert (Hts : to_string k = dec_nonneg k) by (unfold to_string; replace (k <? 0) with false by lia; reflexivity).
  unfold gmacro, bind. rewrite inner_plain.
  2:{ apply plain_special, digits_plain. rewrite Hts. apply dec_nonneg_digits. lia. }
  unfold get. destruct (to_string k) as [|c r] eqn:He.
  { destruct (dec_nonneg_cons k) as (d & r & H & _); [lia|]. congruence. }
  assert (isdigit c = true) as ->.
  { destruct (dec_nonneg_cons k) as (d & r' & H & Hd); [lia|]. congruence. }
  rewrite <- He. pose proof (atoi_dec k [] ltac:(lia) I) as Hat. rewrite app_nil_r in Hat. rewrite Hat.
  destruct k as [|p|p]; try lia. set (k := Zpos p) in *. clearbody k.
  unfold args_left. destruct (r_argv s) as [|a0 argv]; [congruence|]. cbn [tl length] in *.
  rewrite skipn_length.
  replace ((k + r_arg0 s <? 0) || (Z.of_nat (S (length argv)) - 1 <? k + r_arg0 s))
    with (Z.of_nat (length argv - Z.to_nat (r_arg0 s)) <? k) by lia.
  destruct (Z.of_nat (length argv - Z.to_nat (r_arg0 s)) <? k) eqn:Hc; [reflexivity|].
  unfold ret. do 2 f_equal.
  replace (Z.to_nat (k + r_arg0 s)) with (S (Z.to_nat (r_arg0 s) + Z.to_nat (k - 1)))%nat by lia.
  cbn [nth].
  rewrite <- (firstn_skipn (Z.to_nat (r_arg0 s)) argv) at 1.
  rewrite app_nth2; rewrite firstn_length; [|lia]. f_equal. lia.
Qed.
Lemma gmacro_count s : 0 <= r_arg0 s <= Z.of_nat (length (tl (r_argv s))) -> r_argv s <> [] ->
  gmacro R [chr 48] s = Done (Some (to_string (Z.of_nat (length (args_left s))))) s.
Proof.
  intros Ha Hne. unfold gmacro, bind. rewrite inner_plain by reflexivity. unfold get.
  change (isdigit (chr 48)) with true. change (atoi [chr 48]) with (Some 0). cbv iota. unfold ret.
  do 3 f_equal. unfold args_left. rewrite skipn_length. destruct (r_argv s); [congruence|]. cbn [tl length] in *. lia.
Qed.
Lemma gmacro_all s : 0 <= r_arg0 s <= Z.of_nat (length (tl (r_argv s))) -> r_argv s <> [] ->
  gmacro R [chr 42] s = Done (Some (joined (chr 59) (args_left s))) s.
Proof.
  intros Ha Hne. unfold gmacro, bind. rewrite inner_plain by reflexivity. unfold get.
  change (isdigit (chr 42)) with false. change (is 42 (chr 42)) with true. cbv iota.
  destruct (r_argv s) as [|a0 argv] eqn:Hv; [congruence|]. cbn [tl length] in *.
  replace ((r_arg0 s <? -1) || (Z.of_nat (S (length argv)) - 1 <? r_arg0 s)) with false by lia.
  unfold ret. do 2 f_equal. rewrite mtov_joined. f_equal. unfold args_left. rewrite Hv. cbn [tl].
  replace (Z.to_nat (r_arg0 s + 1)) with (S (Z.to_nat (r_arg0 s))) by lia. reflexivity.
Qed.

Lemma scan_ref w (o : option str) r acc s :
  match w with [] => False | c :: _ => Ascii.eqb c PERCENT = false /\ modifier c = None end ->
  lacks PERCENT w = true -> gmacro R w s = Done o s ->
  scan_all E R (wrap PERCENT PERCENT w ++ r) acc s =
  scan_all E R r (acc ++ match o with Some v => v | None => wrap PERCENT PERCENT w end) s.
Proof.
  intros Hw Hl Hg. destruct w as [|c w]; [contradiction|]. destruct Hw as [Hc Hm].
  unfold wrap. cbn [app]. rewrite scan_percent by exact Hc. rewrite Hm.
  rewrite <- app_assoc. cbn [app].
  change (c :: w ++ PERCENT :: r) with ((c :: w) ++ PERCENT :: r).
  rewrite extract_some by exact Hl. unfold bind. rewrite Hg. reflexivity.
Qed.

Lemma no_modifier c : code c <> 33 -> code c <> 35 -> code c <> 45 -> modifier c = None.
Proof.
  intros. unfold modifier, is. replace (code c =? 33) with false by lia. replace (code c =? 35) with false by lia.
  replace (code c =? 45) with false by lia. reflexivity.
Qed.
Ltac split_and H := repeat (let H' := fresh H in apply andb_true_iff in H as [H H']).

Lemma scan_piece g p r acc s : reads s g -> piece_ok g p = true ->
  scan_all E R (source1 p ++ r) acc s = scan_all E R r (acc ++ value1 g p) s.
Proof.
  intros G. destruct G as [G1 G2 G3 G4 G5 G6 G7].
  destruct p as [c|c|name|m name|k| | |t|t]; cbn [piece_ok source1 value1]; intros H.
  - cbn [app]. apply scan_lit. unfold ordinary, special, is.
    rewrite G4 in H. cbn in H. change BACKQ with (chr 96). rewrite eqb_code by lia.
    destruct (r_nopar s); lia.
  - assert (Hc : c = PERCENT \/ c = LBRACE \/ c = AT \/ (r_nopar s = true /\ c = BACKQ)).
    { rewrite G4 in H. cbn in H. assert (code c = 37 \/ code c = 123 \/ code c = 64 \/ (r_nopar s = true /\ code c = 96)) as Hd.
      { destruct (r_nopar s); lia. }
      destruct Hd as [Hd|[Hd|[Hd|[Hd1 Hd]]]]; apply code_chr_eq in Hd; try lia; auto. }
    cbn [app]. destruct Hc as [->|[->|[->|[Hn ->]]]].
    + apply scan_percent2.
    + apply scan_brace2.
    + apply scan_at2.
    + rewrite scan_backq by exact Hn. change (Ascii.eqb BACKQ BACKQ) with true. reflexivity.
  - split_and H. destruct name as [|c name]; [discriminate|]. rewrite G1.
    pose proof (first_not_head _ _ _ H0) as Hf. cbn in Hf.
    assert (Hc : code c <> 37).
    { pose proof H2 as Hp. apply without_Forall, Forall_inv in Hp. cbn in Hp. lia. }
    apply (scan_ref (c :: name) (macro s (c :: name))).
    + change PERCENT with (chr 37). rewrite eqb_code by lia.
      split; [lia|]. apply no_modifier; lia.
    + apply plain_lacks; exact H2.
    + apply gmacro_name; auto. cbn. destruct (code c =? 42) eqn:?; [lia|reflexivity].
  - split_and H. rewrite G1 in *. destruct (macro s name) as [v|] eqn:Hv; [|discriminate].
    apply among_true in H. unfold wrap. cbn [app].
    assert (Hmod : exists f, modifier m = Some f).
    { unfold modifier, is. cbn in H.
      destruct (code m =? 33) eqn:?; [eauto|]. destruct (code m =? 35) eqn:?; [eauto|].
      destruct (code m =? 45) eqn:?; [eauto|lia]. }
    destruct Hmod as [f Hf'].
    rewrite scan_percent by (change PERCENT with (chr 37); rewrite eqb_code by lia; cbn in H; lia).
    rewrite Hf'. rewrite <- app_assoc. cbn [app].
    rewrite extract_some by (apply plain_lacks; assumption).
    unfold bind. rewrite gmacro_name by assumption. rewrite Hv.
    rewrite (modified_ok m f v Hf' H H0). reflexivity.
  - assert (H1 : 1 <= k) by lia.
    assert (H2 : k + r_arg0 s < 2 ^ 31).
    { destruct (r_argv s); [congruence|]. cbn [tl length] in *. change (2 ^ 31) with (2 ^ 30 + 2 ^ 30). lia. }
    assert (Hdig : Forall (fun c => isdigit c = true) (to_string k)).
    { unfold to_string. replace (k <? 0) with false by lia. apply dec_nonneg_digits. lia. }
    rewrite (scan_ref _ _ r acc s) with (3 := gmacro_num k s H1 H2 G5 G6).
    + rewrite G2. do 2 f_equal. destruct (Z.of_nat (length (args_left s)) <? k) eqn:Hc.
      * rewrite nth_overflow by lia. reflexivity.
      * apply nth_indep. lia.
    + destruct (to_string k) as [|c t] eqn:He.
      { unfold to_string in He. replace (k <? 0) with false in He by lia.
        destruct (dec_nonneg_cons k) as (d & u & Hd & _); [lia|]. congruence. }
      apply Forall_inv in Hdig. unfold isdigit in Hdig.
      change PERCENT with (chr 37). rewrite eqb_code by lia. split; [lia|].
      apply no_modifier; lia.
    + apply plain_lacks, digits_plain, Hdig.
  - rewrite G2. apply (scan_ref _ (Some _)); [split; reflexivity|reflexivity|]. apply gmacro_count; tauto.
  - rewrite G2. apply (scan_ref _ (Some _)); [split; reflexivity|reflexivity|]. apply gmacro_all; tauto.
  - split_and H. rewrite G4 in H. unfold wrap. cbn [app]. rewrite scan_backq by exact H.
    destruct t as [|d t]; [discriminate|]. cbn [app].
    assert (Ascii.eqb d BACKQ = false) as ->.
    { pose proof H0 as Hb. apply without_Forall, Forall_inv in Hb. cbn in Hb.
      change BACKQ with (chr 96). rewrite eqb_code by lia. lia. }
    rewrite <- app_assoc. cbn [app]. change (d :: t ++ BACKQ :: r) with ((d :: t) ++ BACKQ :: r).
    rewrite extract_some; [reflexivity|]. apply (without_lacks [96] _ 96); [lia|cbn; auto|exact H0].
  - split_and H. rewrite G3. unfold wrap. cbn [app].
    assert (HR : exists e u, t ++ [RBRACE] ++ r = e :: u /\ (t = [] /\ e = RBRACE /\ u = r \/ exists t', t = e :: t')).
    { destruct t as [|e t']; [exists RBRACE, r|exists e, (t' ++ RBRACE :: r)]; repeat split; eauto. }
    destruct HR as (e & u & He & Hcase).
    rewrite <- app_assoc. rewrite He.
    rewrite scan_brace.
    2:{ destruct Hcase as [(_ & -> & _)|(t' & ->)]; [reflexivity|].
        apply without_Forall, Forall_inv in H. cbn in H. change LBRACE with (chr 123). rewrite eqb_code by lia. lia. }
    rewrite <- He. cbn [app]. rewrite extract_some by (apply (without_lacks [125] _ 125); [lia|cbn; auto|exact H1]).
    unfold bind, gcmd, bind. rewrite inner_plain by (apply plain_special; exact H).
    unfold eval. destruct t as [|c t]; [reflexivity|].
    apply first_not_head in H0. cbn in H0.
    replace (is_dollar c) with false by (unfold is_dollar, is; lia).
    replace (is 61 c) with false by (unfold is; lia). reflexivity.
Qed.
Lemma scan_pieces g ps : forall r acc s, reads s g -> forallb (piece_ok g) ps = true ->
  scan_all E R (source ps ++ r) acc s = scan_all E R r (acc ++ value g ps) s.
Proof.
  induction ps as [|p ps IH]; intros r acc s G H; [cbn; rewrite app_nil_r; reflexivity|].
  cbn [forallb] in H. apply andb_true_iff in H as [Hp Hps]. unfold source, value. cbn [flat_map].
  fold (source ps) (value g ps). rewrite <- app_assoc, (scan_piece g) by assumption.
  rewrite IH by assumption. rewrite <- app_assoc. reflexivity.
Qed.
Lemma expand_pieces g ps s : reads s g -> forallb (piece_ok g) ps = true ->
  expand_F E R (source ps) s = Done (value g ps) s.
Proof.
  intros G H. rewrite expand_all. rewrite <- (app_nil_r (source ps)).
  rewrite (scan_pieces g) by assumption. reflexivity.
Qed.
End Pieces.
