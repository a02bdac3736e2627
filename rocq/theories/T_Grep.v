(** C24: the wildcard matcher follows the documented pattern language. *)
From Coq Require Import ZArith Ascii String List Bool Lia.
From Verif Require Import M_Base M_Names M_Lex S_Names M_Kdb M_Grep S_Grep L_Grep L_Grep2.
Import ListNotations.
Open Scope Z_scope.

(** Whatever the text, a tame pattern gives the answer of the documented language. *)
Theorem C24_matches_the_language_partial : forall p s ecase all b,
  ordinary all -> tame (items all p) = true -> hanging p = false ->
  grep_gnl p s ecase all = Ok b -> (b = true <-> matches ecase all p s).
Proof. exact grep_gnl_iff. Qed.
Print Assumptions C24_matches_the_language_partial.

(** Without '&' the matcher never reads outside the text. *)
Theorem C24_defined : forall p s ecase all,
  ordinary all -> no_ampersand (items all p) = true ->
  exists b, grep_gnl p s ecase all = Ok b.
Proof. exact grep_gnl_defined. Qed.
Print Assumptions C24_defined.

Example C24_ex :
  ordinary (chr 42) /\ tame (items (chr 42) (S2L "*!A1!*")) = true /\ hanging (S2L "*!A1!*") = false /\
  no_ampersand (items (chr 42) (S2L "*!A1!*")) = true /\
  grep_gnl (S2L "*!A1!*") (S2L "2*a1+B") false (chr 42) = Ok true /\
  grep_gnl (S2L "*!A1!*") (S2L "2*CA1+B") false (chr 42) = Ok false /\
  grep_gnl (S2L "a\?*c?") (S2L "a?bccd") true (chr 42) = Ok true.
Proof. split; [exact star_ordinary|]. repeat split. Qed.

(** A name list is selected in a database exactly by the blocks of the pattern. *)
Theorem C24_name_patterns_partial : forall ty b p, ty <> COMMENTS ->
  (forall k, In k (keys (objs b)) -> k <> [] /\ key_of ty k = k) ->
  p <> [] -> (forall q q', block_of list_separator p q -> trimmed q q' -> plain_block q') ->
  match filter_by_pattern ty b p with
  | Ok l => forall n, In n l <-> In n (keys (objs b)) /\ selects (key_of ty) p n list_separator trimmed
  | Throw => forall n, In n (keys (objs b)) -> ~ selects (key_of ty) p n list_separator trimmed
  | UB => False
  end.
Proof. exact filter_by_pattern_ok. Qed.
Print Assumptions C24_name_patterns_partial.

Definition ex_db : db :=
  mkDb DB_GLOBAL true 0 [] [(S2L "ACAF", 0%nat); (S2L "ACAG", 1%nat); (S2L "AOUC", 2%nat); (S2L "QC0", 3%nat)].
Example C24_name_patterns_ex :
  filter_by_pattern VARIABLES ex_db (S2L "ac*; qc0 ZZZ") = Ok [S2L "ACAF"; S2L "ACAG"; S2L "QC0"] /\
  filter_by_pattern VARIABLES ex_db (S2L "Z*") = Throw /\
  (forall k, In k (keys (objs ex_db)) -> k <> [] /\ key_of VARIABLES k = k) /\
  (forall q q', block_of list_separator (S2L "ac*; qc0 ZZZ") q -> trimmed q q' -> plain_block q').
Proof.
  split; [reflexivity|]. split; [reflexivity|]. split.
  - intros k [<-|[<-|[<-|[<-|[]]]]]; split; (discriminate || reflexivity).
  - intros q q' B T. assert (E : q' = M_Names.trim q) by (eapply L_Names.trimmed_unique; eauto using L_Names.trim_trimmed).
    apply in_split in B. subst q'.
    cbn in B. destruct B as [<-|[<-|[<-|[<-|[]]]]]; (split; [cbn; intuition discriminate | repeat split]).
Qed.

(** The full statement is false.  A second '*' at the end, or a final '!', makes texts of the
    language refused; two '*' before '!' make a text outside the language accepted; '&' after the
    end of the text reads outside. *)
Theorem C24_refuted :
  (matches false (chr 42) (S2L "A**") (S2L "A") /\ grep_gnl (S2L "A**") (S2L "A") false (chr 42) = Ok false) /\
  (matches false (chr 42) (S2L "*!") (S2L "A") /\ grep_gnl (S2L "*!") (S2L "A") false (chr 42) = Ok false) /\
  (~ matches false (chr 42) (S2L "**!B") (S2L "AB") /\ grep_gnl (S2L "**!B") (S2L "AB") false (chr 42) = Ok true) /\
  (~ matches false (chr 42) (S2L "A&") (S2L "A") /\ grep_gnl (S2L "A&") (S2L "A") false (chr 42) = UB).
Proof.
  split; [|split; [|split]]; (split; [|reflexivity]).
  - unfold matches. cbn. exists (chr 65), []. repeat split; [now left|].
    exists [], []. split; [reflexivity|]. exists [], []. auto.
  - unfold matches. cbn. exists [chr 65], []. repeat split. right. split; [now right|reflexivity].
  - unfold matches. intros (u & v & E & u2 & v2 & E2 & H). cbn in H.
    assert (Bv : forall c v', lang false false [Lit "B"%char] v' -> v' = c :: nil -> alike false c "B"%char).
    { intros c v' (c' & w & -> & A & _) Ev. inversion Ev. now subst. }
    destruct H as [(c & w & -> & Nw & (d & w' & -> & A & ->))|[St (d & w' & -> & A & ->)]].
    + (* a non alphanumerical character before the last one: it is the letter A *)
      assert (X : S2L "AB" = (u ++ u2) ++ [c; d]) by (rewrite E, E2, app_assoc; reflexivity).
      change (S2L "AB") with ([] ++ ["A"%char; "B"%char]) in X.
      change ([] ++ ["A"%char; "B"%char]) with ((@nil ascii ++ ["A"%char]) ++ ["B"%char]) in X.
      replace ((u ++ u2) ++ [c; d]) with (((u ++ u2) ++ [c]) ++ [d]) in X by now rewrite <- app_assoc.
      apply app_inj_tail in X. destruct X as [X _]. apply app_inj_tail in X. destruct X as [_ <-].
      apply Nw. right. left. cbn. lia.
    + (* the text consumed before is the letter A *)
      destruct St as [St|St]; [|discriminate].
      apply andb_true_iff in St. destruct St as [S1 S2]. destruct u; [|discriminate]. destruct u2; [|discriminate].
      cbn in E, E2. rewrite E2 in E. discriminate.
  - unfold matches. cbn. intros (c & v & E & _ & c2 & v2 & E2 & _). inversion E. subst. discriminate.
Qed.
Print Assumptions C24_refuted.
