From Coq Require Import ZArith Ascii String List Bool Lia.
From Coq Require Import ZifyBool.
From Verif Require Import M_Base M_Time S_Time L_Time M_Names M_Lex S_Names.
Import ListNotations.
Open Scope Z_scope.

Lemma code_range c : 0 <= code c < 256.
Proof. unfold code. pose proof (N_ascii_bounded c). lia. Qed.

Lemma blank_iff c : isspace c = true <-> blank c.
Proof. unfold isspace, blank. lia. Qed.
Lemma nblank_iff c : isspace c = false <-> ~ blank c.
Proof. unfold isspace, blank. lia. Qed.

Lemma drop_blanks_spec s : exists a, s = a ++ drop_blanks s /\ Forall blank a /\
  (forall c u, drop_blanks s = c :: u -> ~ blank c).
Proof.
  induction s as [|c s (a & E & F & N)]; cbn.
  - exists []. repeat split; auto. intros c u H. discriminate H.
  - destruct (isspace c) eqn:H.
    + exists (c :: a). split; [cbn; f_equal; exact E|]. split; [constructor; [apply blank_iff, H|exact F]|exact N].
    + exists []. repeat split; auto. intros c' u X. injection X as -> _. apply nblank_iff, H.
Qed.

Lemma Forall_rev' {A} (P : A -> Prop) l : Forall P l -> Forall P (rev l).
Proof. intros H. apply Forall_forall. intros x Hx. apply in_rev in Hx. rewrite Forall_forall in H. auto. Qed.

Lemma trim_trimmed s : trimmed s (trim s).
Proof.
  unfold trim. destruct (drop_blanks_spec s) as (a & E & F & N).
  destruct (drop_blanks_spec (rev (drop_blanks s))) as (b & E2 & F2 & N2).
  set (t := drop_blanks (rev (drop_blanks s))) in *.
  assert (E3 : drop_blanks s = rev t ++ rev b) by (rewrite <- rev_app_distr, <- E2, rev_involutive; reflexivity).
  exists a, (rev b). split; [rewrite <- E3; exact E|]. split; [exact F|]. split; [apply Forall_rev', F2|].
  split.
  - intros c u H. apply (N c (u ++ rev b)). rewrite E3, H. reflexivity.
  - intros c u H. apply (N2 c (rev u)). rewrite <- (rev_involutive t), H, rev_app_distr. reflexivity.
Qed.

Lemma app_blank_front a1 : forall a2 x1 x2, Forall blank a1 -> Forall blank a2 ->
  (forall c u, x1 = c :: u -> ~ blank c) -> (forall c u, x2 = c :: u -> ~ blank c) ->
  a1 ++ x1 = a2 ++ x2 -> x1 = x2.
Proof.
  induction a1 as [|c a1 IH]; intros a2 x1 x2 F1 F2 N1 N2 E.
  - destruct a2 as [|d a2]; [exact E|]. exfalso. apply (N1 d (a2 ++ x2)); [exact E|]. now inversion F2.
  - destruct a2 as [|d a2]; [exfalso; apply (N2 c (a1 ++ x1)); [symmetry; exact E|now inversion F1]|].
    inversion F1; inversion F2; subst. injection E as _ E. eapply IH; eauto.
Qed.

Lemma trimmed_ends_nil t b : Forall blank b -> (forall c u, t ++ b = c :: u -> t = [] -> blank c).
Proof. intros F c u E ->. cbn in E. subst b. now inversion F. Qed.

Lemma trimmed_unique s t1 t2 : trimmed s t1 -> trimmed s t2 -> t1 = t2.
Proof.
  intros (a1 & b1 & E1 & A1 & B1 & N1 & M1) (a2 & b2 & E2 & A2 & B2 & N2 & M2).
  assert (Z : forall a b t, Forall blank a -> Forall blank b -> Forall blank (a ++ t ++ b) -> 
     (forall c u, t = c :: u -> ~ blank c) -> t = []).
  { intros a b t Fa Fb F N. destruct t as [|c t]; [reflexivity|]. exfalso. apply (N c t eq_refl).
    apply Forall_app in F as [_ F]. cbn in F. now inversion F. }
  destruct t1 as [|c1 t1].
  { symmetry. apply (Z a2 b2); auto. rewrite <- E2, E1. apply Forall_app. split; [exact A1|exact B1]. }
  destruct t2 as [|c2 t2].
  { apply (Z a1 b1); auto. rewrite <- E1, E2. apply Forall_app. split; [exact A2|exact B2]. }
  assert (H : (c1 :: t1) ++ b1 = (c2 :: t2) ++ b2).
  { apply (app_blank_front a1 a2); auto.
    - intros c u X. injection X as -> _. eapply N1; reflexivity.
    - intros c u X. injection X as -> _. eapply N2; reflexivity.
    - rewrite <- E1, <- E2. reflexivity. }
  set (t1' := c1 :: t1) in *. set (t2' := c2 :: t2) in *.
  assert (R : rev b1 ++ rev t1' = rev b2 ++ rev t2') by (rewrite <- !rev_app_distr, H; reflexivity).
  apply app_blank_front in R; [|apply Forall_rev', B1|apply Forall_rev', B2| |].
  - rewrite <- (rev_involutive t1'), R, rev_involutive. reflexivity.
  - intros c u X. apply (M1 c (rev u)). rewrite <- (rev_involutive t1'), X. reflexivity.
  - intros c u X. apply (M2 c (rev u)). rewrite <- (rev_involutive t2'), X. reflexivity.
Qed.

Lemma upper_same a b : toupper a = toupper b <-> same_letter a b.
Proof.
  split.
  - intros H. apply (f_equal code) in H. unfold toupper, islower in H.
    pose proof (code_range a). pose proof (code_range b).
    destruct ((97 <=? code a) && (code a <=? 122)) eqn:A, ((97 <=? code b) && (code b <=? 122)) eqn:B;
      rewrite ?code_chr in H by lia.
    + replace b with a by (apply code_inj; lia). constructor.
    + apply sl_lu; lia.
    + apply sl_ul; lia.
    + replace b with a by (apply code_inj; lia). constructor.
  - intros [c|x y A B|x y A B]; [reflexivity| |]; apply code_inj; unfold toupper, islower.
    + replace ((97 <=? code x) && (code x <=? 122)) with true by lia.
      replace ((97 <=? code y) && (code y <=? 122)) with false by lia. rewrite code_chr; lia.
    + replace ((97 <=? code x) && (code x <=? 122)) with false by lia.
      replace ((97 <=? code y) && (code y <=? 122)) with true by lia. rewrite code_chr; lia.
Qed.
Lemma lower_same a b : tolower a = tolower b <-> same_letter a b.
Proof.
  split.
  - intros H. apply (f_equal code) in H. unfold tolower, isupper in H.
    pose proof (code_range a). pose proof (code_range b).
    destruct ((65 <=? code a) && (code a <=? 90)) eqn:A, ((65 <=? code b) && (code b <=? 90)) eqn:B;
      rewrite ?code_chr in H by lia.
    + replace b with a by (apply code_inj; lia). constructor.
    + apply sl_ul; lia.
    + apply sl_lu; lia.
    + replace b with a by (apply code_inj; lia). constructor.
  - intros [c|x y A B|x y A B]; [reflexivity| |]; apply code_inj; unfold tolower, isupper.
    + replace ((65 <=? code x) && (code x <=? 90)) with false by lia.
      replace ((65 <=? code y) && (code y <=? 90)) with true by lia. rewrite code_chr; lia.
    + replace ((65 <=? code x) && (code x <=? 90)) with true by lia.
      replace ((65 <=? code y) && (code y <=? 90)) with false by lia. rewrite code_chr; lia.
Qed.

Lemma map_same (f : ascii -> ascii) (H : forall a b, f a = f b <-> same_letter a b) s t :
  map f s = map f t <-> same_but_case s t.
Proof.
  split.
  - revert t. induction s as [|a s IH]; intros [|b t] E; try discriminate E; [constructor|].
    injection E as E1 E2. constructor; [apply H, E1|apply IH, E2].
  - induction 1; cbn; [reflexivity|]. f_equal; [now apply H|assumption].
Qed.

Lemma to_key_same m a b : to_key m a = to_key m b <-> designate_same m a b.
Proof.
  unfold designate_same, to_key, to_upper, to_lower. split.
  - intros E. exists (trim a), (trim b). split; [apply trim_trimmed|]. split; [apply trim_trimmed|].
    destruct m; [apply (map_same _ upper_same), E|apply (map_same _ lower_same), E|exact E].
  - intros (a' & b' & Ta & Tb & S).
    rewrite (trimmed_unique a _ _ (trim_trimmed a) Ta), (trimmed_unique b _ _ (trim_trimmed b) Tb).
    destruct m; [apply (map_same _ upper_same), S|apply (map_same _ lower_same), S|exact S].
Qed.

Lemma tolower_idem c : tolower (tolower c) = tolower c.
Proof.
  apply code_inj. unfold tolower, isupper.
  destruct ((65 <=? code c) && (code c <=? 90)) eqn:A; [|rewrite A; reflexivity].
  rewrite code_chr by lia.
  replace ((65 <=? code c + 32) && (code c + 32 <=? 90)) with false by lia. rewrite code_chr; lia.
Qed.
Lemma toupper_blank c : blank (toupper c) <-> blank c.
Proof.
  unfold blank, toupper, islower. destruct ((97 <=? code c) && (code c <=? 122)) eqn:A; [|reflexivity].
  rewrite code_chr by lia. lia.
Qed.
Lemma tolower_blank c : blank (tolower c) <-> blank c.
Proof.
  unfold blank, tolower, isupper. destruct ((65 <=? code c) && (code c <=? 90)) eqn:A; [|reflexivity].
  rewrite code_chr by lia. lia.
Qed.

Lemma trimmed_map (f : ascii -> ascii) (H : forall c, blank (f c) <-> blank c) s :
  trimmed (map f (trim s)) (map f (trim s)).
Proof.
  destruct (trim_trimmed s) as (a & b & _ & _ & _ & N & M). exists [], [].
  rewrite app_nil_r. split; [reflexivity|]. split; [constructor|]. split; [constructor|]. split.
  - intros c u E. destruct (trim s) as [|d t] eqn:T; [discriminate E|]. injection E as <- _.
    rewrite H. eapply N; reflexivity.
  - intros c u E. apply map_eq_app in E as (t1 & t2 & E1 & E2 & E3).
    destruct t2 as [|d [|? ?]]; try discriminate E3. injection E3 as <-. rewrite H. eapply M, E1.
Qed.
Lemma to_key_idem m s : to_key m (to_key m s) = to_key m s.
Proof.
  destruct m; unfold to_key, to_upper, to_lower.
  - rewrite (trimmed_unique _ _ _ (trim_trimmed _) (trimmed_map toupper toupper_blank s)), map_map.
    apply map_ext. apply toupper_idem.
  - rewrite (trimmed_unique _ _ _ (trim_trimmed _) (trimmed_map tolower tolower_blank s)), map_map.
    apply map_ext. apply tolower_idem.
  - pose proof (trimmed_map (fun c => c) (fun c => iff_refl _) s) as H. rewrite map_id in H.
    apply (trimmed_unique _ _ _ (trim_trimmed _) H).
Qed.

Lemma to_key_case m s c : In c (to_key m s) ->
  match m with UPPER_CASE => ~ 97 <= code c <= 122 | LOWER_CASE => ~ 65 <= code c <= 90 | ASIS_CASE => True end.
Proof.
  destruct m; cbn; [| |trivial]; intros H; apply in_map_iff in H as (d & <- & _).
  - unfold toupper, islower. destruct ((97 <=? code d) && (code d <=? 122)) eqn:A; [rewrite code_chr|]; lia.
  - unfold tolower, isupper. destruct ((65 <=? code d) && (code d <=? 90)) eqn:A; [rewrite code_chr|]; lia.
Qed.

(** check_name *)
Lemma re_letter_iff t c : re_letter t c = true <-> letter_of t c.
Proof. destruct t; unfold re_letter, letter_of, isalpha, isupper, islower; lia. Qed.

Lemma forallb_Forall {A} (p : A -> bool) P l : (forall x, p x = true <-> P x) -> (forallb p l = true <-> Forall P l).
Proof.
  intros H. rewrite forallb_forall, Forall_forall. split; intros K x Hx; apply H, K, Hx.
Qed.

Lemma regex_iff t n : regex_match_name t n = true <-> accepted t n.
Proof.
  unfold regex_match_name, accepted, K_MAX_NAME. destruct n as [|c r].
  - split; [discriminate|]. intros (c & r & E & _). discriminate E.
  - rewrite !andb_true_iff.
    rewrite (forallb_Forall _ (fun x => letter_of t x \/ 48 <= code x <= 57 \/ code x = 95 \/ code x = 35)).
    2:{ intros x. unfold re_next. rewrite !orb_true_iff, re_letter_iff. unfold isdigit, is_us, is_sharp. rewrite andb_true_iff, !Z.leb_le, !Z.eqb_eq. tauto. }
    unfold re_first. rewrite orb_true_iff, re_letter_iff. unfold is_us. split.
    + intros [[A B] C]. exists c, r. repeat split; auto; [cbn; lia|]. destruct A as [A|A]; [left; exact A|right; lia].
    + intros (c' & r' & E & L & A & B). injection E as <- <-. cbn in L. repeat split; auto; [|lia].
      destruct A as [A|A]; [left; exact A|right; lia].
Qed.
Lemma check_name_iff t n : check_name n t = Ok tt <-> accepted t n.
Proof.
  rewrite <- regex_iff. unfold check_name. destruct n as [|c r]; [split; discriminate|].
  destruct (K_MAX_NAME <? Z.of_nat (length (c :: r))) eqn:L.
  - split; [discriminate|]. rewrite regex_iff. intros (c' & r' & E & Len & _). unfold K_MAX_NAME in L. lia.
  - destruct (regex_match_name t (c :: r)); split; congruence.
Qed.

(** lexing a word *)
Lemma span_app p a : forall b, forallb p a = true -> (forall c u, b = c :: u -> p c = false) ->
  span p (a ++ b) = (a, b).
Proof.
  induction a as [|c a IH]; intros b F N; cbn in *.
  - destruct b as [|d b]; [reflexivity|]. cbn. rewrite (N d b eq_refl). reflexivity.
  - apply andb_true_iff in F as [F1 F2]. rewrite F1, (IH b F2 N). reflexivity.
Qed.

Lemma str_eqb_iff a : forall b, str_eqb a b = true <-> a = b.
Proof.
  induction a as [|c a IH]; intros [|d b]; cbn; try (split; congruence).
  rewrite andb_true_iff, IH. unfold ascii_eqb. split.
  - intros [A B]. f_equal; [apply code_inj; lia|exact B].
  - intros E. injection E as -> ->. split; [lia|reflexivity].
Qed.
Lemma find_string_none w tab : ~ In w (map fst tab) -> find_string w tab = None.
Proof.
  induction tab as [|[k t] tab IH]; cbn; [reflexivity|]. intros H.
  destruct (str_eqb w k) eqn:E; [apply str_eqb_iff in E; subst; tauto|apply IH; tauto].
Qed.

Lemma word_first_not c : word_first c = true ->
  isspace c = false /\ (code c =? 34) = false /\ (code c =? 39) = false /\ (code c =? 36) = false /\
  (code c =? 35) = false /\ isdigit c = false.
Proof.
  unfold word_first, scr_is_alpha, is_us, isalpha, isupper, islower, isspace, isdigit, oem_letters. cbn [existsb].
  intros H. lia.
Qed.

Lemma read_word c w rest : word_first c = true -> forallb is_word_char w = true -> word_ends rest ->
  yy_read ((c :: w) ++ rest) = (R_WORD (c :: w), rest).
Proof.
  intros C W E. destruct (word_first_not c C) as (A1 & A2 & A3 & A4 & A5 & A6).
  unfold yy_read. cbn [app skip_spaces]. rewrite A1, A2, A3, A4, A5, A6. cbn [orb].
  unfold word_first in C. rewrite C.
  change (c :: w ++ rest) with ((c :: w) ++ rest). rewrite span_app; [reflexivity| |exact E].
  cbn. rewrite W, andb_true_r. unfold is_word_char. apply orb_true_iff in C as [C|C]; rewrite C; [reflexivity|].
  rewrite !orb_true_r. reflexivity.
Qed.

Lemma get_token_word c w rest : word_first c = true -> forallb is_word_char w = true -> word_ends rest ->
  ~ In (c :: w) (map fst keywords) ->
  get_token ((c :: w) ++ rest) =
    ((if is_coefficient (c :: w) then T_COEF (firstn 20 (c :: w)) else T_VAR (firstn 20 (c :: w))), rest).
Proof.
  intros C W E K. unfold get_token. cbn [get_token_aux]. rewrite (read_word c w rest C W E).
  rewrite (find_string_none _ _ K). reflexivity.
Qed.

Lemma accepted_word t c w : accepted t (c :: w) -> ~ In (chr 35) w ->
  word_first c = true /\ forallb is_word_char w = true /\ firstn 20 (c :: w) = c :: w.
Proof.
  intros (c' & r' & E & L & A & B) S. injection E as <- <-.
  assert (LA : forall x, letter_of t x -> isalpha x = true)
    by (intros x; destruct t; unfold letter_of, isalpha, isupper, islower; lia).
  split; [|split].
  - unfold word_first, scr_is_alpha, is_us. destruct A as [A|A]; [rewrite (LA _ A); reflexivity|lia].
  - apply forallb_forall. intros x Hx. rewrite Forall_forall in B. specialize (B x Hx).
    unfold is_word_char, scr_is_alpha, is_us, isdigit.
    destruct B as [B|[B|[B|B]]]; [rewrite (LA _ B); reflexivity|lia|lia|].
    exfalso. apply S. replace (chr 35) with x; [exact Hx|]. apply code_inj. rewrite code_chr by lia. lia.
  - apply firstn_all2. exact L.
Qed.

Lemma keyword_lower k : In k (map fst keywords) -> Forall (fun c => 97 <= code c <= 122 \/ code c = 48) k.
Proof.
  intros H. 
  assert (X : forallb (fun k => forallb (fun c => ((97 <=? code c) && (code c <=? 122)) || (code c =? 48)) k)
     (map fst keywords) = true) by reflexivity.
  rewrite forallb_forall in X. specialize (X k H). rewrite forallb_forall in X.
  apply Forall_forall. intros c Hc. specialize (X c Hc). lia.
Qed.

Lemma lex_variable n rest : accepted VARIABLES n -> ~ In (chr 35) n -> Exists (fun c => 65 <= code c <= 90) n ->
  word_ends rest -> get_token (n ++ rest) = (T_VAR n, rest).
Proof.
  intros A S U E. destruct n as [|c w]; [now inversion U|].
  assert (S' : ~ In (chr 35) w) by (intros H; apply S; right; exact H).
  destruct (accepted_word _ _ _ A S') as (H1 & H2 & H3).
  assert (NK : ~ In (c :: w) (map fst keywords)).
  { intros H. apply keyword_lower in H. apply Exists_exists in U as (x & Hx & Ux).
    rewrite Forall_forall in H. specialize (H x Hx). lia. }
  rewrite (get_token_word c w rest H1 H2 E NK). rewrite H3.
  replace (is_coefficient (c :: w)) with false; [reflexivity|]. symmetry. unfold is_coefficient.
  destruct (regex_match_name SCALARS (c :: w)) eqn:R; [|reflexivity]. exfalso.
  apply regex_iff in R as (c' & r' & X & _ & A' & B'). injection X as <- <-.
  apply Exists_exists in U as (x & Hx & Ux). cbn [letter_of] in *. destruct Hx as [<-|Hx]; [lia|].
  rewrite Forall_forall in B'. specialize (B' x Hx). lia.
Qed.

Lemma lex_scalar n rest : accepted SCALARS n -> ~ In (chr 35) n -> ~ In n (map fst keywords) ->
  word_ends rest -> get_token (n ++ rest) = (T_COEF n, rest).
Proof.
  intros A S NK E. destruct n as [|c w]; [destruct A as (? & ? & X & _); discriminate X|].
  assert (S' : ~ In (chr 35) w) by (intros H; apply S; right; exact H).
  destruct (accepted_word _ _ _ A S') as (H1 & H2 & H3).
  rewrite (get_token_word c w rest H1 H2 E NK). rewrite H3.
  unfold is_coefficient. apply regex_iff in A. rewrite A. reflexivity.
Qed.

Lemma lex_caseless n rest : accepted VARIABLES n -> ~ In (chr 35) n -> ~ Exists (fun c => 65 <= code c <= 90) n ->
  word_ends rest -> get_token (n ++ rest) = (T_COEF n, rest).
Proof.
  intros A S U E. apply lex_scalar; auto.
  - destruct A as (c & r & -> & L & A & B). exists c, r. repeat split; auto.
    + right. destruct A as [A|A]; [|exact A]. exfalso. apply U. constructor. exact A.
    + rewrite Forall_forall in *. intros x Hx. destruct (B x Hx) as [H|H]; [|right; exact H].
      exfalso. apply U. apply Exists_exists. exists x. split; [right; exact Hx|exact H].
  - intros H. apply keyword_lower in H. destruct A as (c & r & -> & L & A & B). inversion H; subst.
    destruct A as [A|A]; [cbn in A|]; lia.
Qed.

Lemma short_words a b ra rb : word_ends ra -> word_ends rb ->
  (forall w, w = a \/ w = b -> (length w <= 20)%nat /\ ~ In w (map fst keywords) /\
     exists c u, w = c :: u /\ word_first c = true /\ forallb is_word_char u = true) ->
  fst (get_token (a ++ ra)) = fst (get_token (b ++ rb)) -> a = b.
Proof.
  intros Ea Eb H.
  destruct (H a (or_introl eq_refl)) as (La & Ka & ca & ua & -> & Wa & Fa).
  destruct (H b (or_intror eq_refl)) as (Lb & Kb & cb & ub & -> & Wb & Fb).
  rewrite (get_token_word ca ua ra Wa Fa Ea Ka), (get_token_word cb ub rb Wb Fb Eb Kb).
  rewrite !firstn_all2 by assumption.
  destruct (is_coefficient (ca :: ua)), (is_coefficient (cb :: ub)); cbn [fst]; congruence.
Qed.
