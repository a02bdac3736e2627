(** Properties C09, C10, C45: names and their reading in formulas. *)
From Coq Require Import ZArith Ascii String List Bool.
From Verif Require Import M_Base M_Time M_Names M_Lex S_Names L_Names.
Import ListNotations.
Open Scope Z_scope.

(** C09: two names reach the same object exactly when they are equal up to surrounding blanks and,
    except for comments, up to letter case. *)
Theorem C09_same_key_iff : forall t a b,
  to_key (mode_of t) a = to_key (mode_of t) b <-> designate_same (mode_of t) a b.
Proof. exact (fun t => to_key_same (mode_of t)). Qed.
Print Assumptions C09_same_key_iff.
Theorem C09_key_normal_form : forall t a,
  to_key (mode_of t) (to_key (mode_of t) a) = to_key (mode_of t) a /\
  (forall c, In c (to_key (mode_of t) a) ->
     match t with
     | EQUATIONS | IDENTITIES | LISTS | TABLES | VARIABLES => ~ 97 <= code c <= 122
     | SCALARS => ~ 65 <= code c <= 90
     | COMMENTS | OBJECTS => True end) /\
  (t = COMMENTS -> trimmed a (to_key (mode_of t) a)).
Proof.
  intros t a. split; [apply to_key_idem|]. split; [|intros ->; apply trim_trimmed].
  pose proof (to_key_case (mode_of t) a) as H. destruct t; exact H.
Qed.
Print Assumptions C09_key_normal_form.
Example C09_ex : to_key (mode_of VARIABLES) (S2L "  aBc_1 ") = S2L "ABC_1" /\
  to_key (mode_of SCALARS) (S2L "ABc_1 ") = S2L "abc_1" /\
  to_key (mode_of COMMENTS) (S2L " aBc_1") = S2L "aBc_1" /\
  to_key (mode_of COMMENTS) (S2L "abc_1") <> to_key (mode_of COMMENTS) (S2L "ABC_1").
Proof. repeat split; try reflexivity. discriminate. Qed.

(** C10, first half: which names are accepted. *)
Theorem C10_accepted_iff : forall t n, check_name n t = Ok tt <-> accepted t n.
Proof. exact check_name_iff. Qed.
Print Assumptions C10_accepted_iff.
(** C10 is false: accepted names that a formula does not read as that object. *)
Theorem C10_lexed_refuted :
  (check_name (S2L "A#B") VARIABLES = Ok tt /\ lex (S2L "A#B") = [T_VAR (S2L "A"); T_ERR]) /\
  (check_name (S2L "_1") VARIABLES = Ok tt /\ lex (S2L "_1") = [T_COEF (S2L "_1"); T_EOF]) /\
  (check_name (S2L "t") SCALARS = Ok tt /\ lex (S2L "t") = [T_VAL Vtime; T_EOF]).
Proof. repeat split; reflexivity. Qed.
Print Assumptions C10_lexed_refuted.
(** What is true: a variable name without # and with at least one letter is one variable token; a
    scalar name without # that is no keyword is one coefficient token, whatever follows. *)
Theorem C10_lexed_partial :
  (forall n rest, accepted VARIABLES n -> ~ In (chr 35) n -> Exists (fun c => 65 <= code c <= 90) n ->
     word_ends rest -> get_token (n ++ rest) = (T_VAR n, rest)) /\
  (forall n rest, accepted SCALARS n -> ~ In (chr 35) n -> ~ In n (map fst keywords) ->
     word_ends rest -> get_token (n ++ rest) = (T_COEF n, rest)) /\
  (forall n rest, accepted VARIABLES n -> ~ In (chr 35) n -> ~ Exists (fun c => 65 <= code c <= 90) n ->
     word_ends rest -> get_token (n ++ rest) = (T_COEF n, rest)).
Proof. exact (conj lex_variable (conj lex_scalar lex_caseless)). Qed.
Print Assumptions C10_lexed_partial.
Example C10_ex : accepted VARIABLES (S2L "ACAF_2") /\ accepted SCALARS (S2L "acaf1") /\
  get_token (S2L "ACAF_2*acaf1") = (T_VAR (S2L "ACAF_2"), S2L "*acaf1") /\
  get_token (S2L "acaf1[-1]") = (T_COEF (S2L "acaf1"), S2L "[-1]").
Proof. repeat split; try reflexivity; apply check_name_iff; reflexivity. Qed.

(** C45 is false: two different words of a formula can be read as the same object, because only the
    first 20 characters are kept (and a long lower-case word becomes a variable). *)
Theorem C45_long_words_refuted : exists a b n, a <> b /\ length a = 21%nat /\ length b = 21%nat /\
  lex a = [T_VAR n; T_EOF] /\ lex b = [T_VAR n; T_EOF] /\ Forall (fun c => 97 <= code c <= 122) a.
Proof.
  exists (S2L "abcdefghijklmnopqrstu"), (S2L "abcdefghijklmnopqrstv"), (S2L "abcdefghijklmnopqrst").
  repeat split; try reflexivity; [discriminate|]. repeat (constructor; [cbv; split; discriminate|]). constructor.
Qed.
Print Assumptions C45_long_words_refuted.
(** Words of at most 20 characters are read exactly, so different words give different tokens. *)
Theorem C45_short_words_partial : forall a b ra rb, word_ends ra -> word_ends rb ->
  (forall w, w = a \/ w = b -> (length w <= 20)%nat /\ ~ In w (map fst keywords) /\
     exists c u, w = c :: u /\ word_first c = true /\ forallb is_word_char u = true) ->
  fst (get_token (a ++ ra)) = fst (get_token (b ++ rb)) -> a = b.
Proof. exact short_words. Qed.
Print Assumptions C45_short_words_partial.
Example C45_ex : fst (get_token (S2L "abcdefghijklmnopqrst+1")) = T_COEF (S2L "abcdefghijklmnopqrst").
Proof. reflexivity. Qed.
