(** Tokens produced by the lexer, and the operator stack across compilations. *)
From Coq Require Import ZArith Ascii String List Bool Lia.
From Verif Require Import M_Base M_Time M_Names M_Lex M_Compile S_Lec L_Compile L_Compile2.
Import ListNotations.
Open Scope Z_scope.

Definition plain_token (t : token) : Prop := t <> T_FN Fuminus /\ t <> T_FN Fuplus.
Lemma keyword_plain : forall w t, find_string w keywords = Some t -> plain_token t.
Proof.
  assert (G : forall tab, forallb (fun kt : str * token =>
    match snd kt with T_FN Fuminus => false | T_FN Fuplus => false | _ => true end) tab = true ->
    forall w t, find_string w tab = Some t -> plain_token t).
  { induction tab as [|[k u] tab IH]; intros H w t; cbn [find_string]; [discriminate|].
    cbn [forallb snd] in H. apply andb_true_iff in H. destruct H as [H1 H2].
    destruct (str_eqb w k); [|apply IH; assumption].
    intros E. injection E as <-. split; intros ->; discriminate. }
  apply G. reflexivity.
Qed.
Ltac ifs := repeat match goal with |- context [if ?b then _ else _] => destruct b end.
Lemma find_oper_plain : forall c s, plain_token (fst (find_oper c s)).
Proof.
  intros c s. unfold find_oper. destruct (skip_spaces s) as [|d s']; cbn [find fst snd]; ifs;
    cbn [find fst snd]; ifs; split; discriminate.
Qed.
Lemma get_int_plain : forall n s, plain_token (fst (get_int n s)).
Proof.
  intros n [|c s]; cbn [get_int]; [split; discriminate|].
  destruct (lex_period_nb c); [|split; discriminate].
  destruct (yy_read s) as [[] r]; ifs; split; discriminate.
Qed.
Lemma get_token_plain : forall s, plain_token (fst (get_token s)).
Proof.
  intros s. unfold get_token. generalize (S (length s)). intros n. revert s.
  induction n as [|n IH]; intros s; cbn [get_token_aux]; [split; discriminate|].
  destruct (yy_read s) as [[] r]; try (split; discriminate); auto using get_int_plain, find_oper_plain.
  destruct (find_string w keywords) eqn:E; [eapply keyword_plain; eassumption|].
  destruct (is_coefficient w); split; discriminate.
Qed.
Lemma lex_plain : forall text t, In t (lex text) -> plain_token t.
Proof.
  intros text. unfold lex. generalize (S (length (yy_chars text))). intros n. generalize (yy_chars text).
  induction n as [|n IH]; intros s t; cbn [lex_aux].
  - intros [<-|[]]; split; discriminate.
  - pose proof (get_token_plain s) as P. destruct (get_token s) as [u r]. cbn [fst] in P.
    destruct u; try (intros [<-|[]]; split; discriminate);
      (intros [<-|I]; [exact P|eapply IH; eassumption]).
Qed.

Lemma lex_ends : forall text, exists l t, lex text = l ++ [t] /\ (t = T_EOF \/ t = T_EOE \/ t = T_ERR \/ t = T_UNMODELLED) /\
  forall u, In u l -> u <> T_EOF /\ u <> T_EOE /\ u <> T_ERR /\ u <> T_UNMODELLED.
Proof.
  intros text. unfold lex. generalize (S (length (yy_chars text))). intros n. generalize (yy_chars text).
  induction n as [|n IH]; intros s; cbn [lex_aux].
  - exists [], T_ERR. repeat split; auto; contradiction.
  - destruct (get_token s) as [u r].
    destruct (IH r) as (l & t & E & H1 & H2).
    destruct u;
      try (eexists [], _; split; [reflexivity|]; split; [tauto|intros ? []]; fail);
      (rewrite E; eexists (_ :: l), t; split; [reflexivity|]; split; [exact H1|];
       intros ? [<-|I]; [repeat split; discriminate|apply H2; exact I]).
Qed.

Lemma text_sound text x o : compile_text text [] = (C_ok x, o) ->
  (lex text = [T_EOF] \/ lex text = [T_EOE]) \/
  exists e t, reading e /\ (t = T_EOF \/ t = T_EOE) /\ lex text = written e ++ [t] /\ x = rpn e ++ [A_EOE] /\ o = [].
Proof.
  intros H. unfold compile_text in H. pose proof H as K.
  apply compile_sound in H.
  2,3: intros I; apply lex_plain in I; destruct I; congruence.
  destruct (lex_ends text) as (l & last & E & Hl & Hin).
  assert (U : forall pre t more, endtok t -> lex text = pre ++ t :: more -> more = []).
  { intros pre t more Ht E2. rewrite E in E2. destruct (exists_last (l := t :: more)) as (m & z & Ez); [discriminate|].
    rewrite Ez, app_assoc in E2. apply app_inj_tail in E2. destruct E2 as [-> ->].
    destruct more as [|q more]; [reflexivity|exfalso].
    destruct m as [|m0 m]; [destruct more; discriminate|].
    injection Ez as <- Ez. destruct (Hin t) as (H1 & H2 & _). { apply in_app_iff. right. left. reflexivity. }
    destruct Ht; contradiction. }
  destruct H as [(t & more & Ht & E2)|(e & t & more & R & Ht & E2)].
  - left. rewrite E2. rewrite (U [] t more Ht E2). destruct Ht; subst; auto.
  - right. pose proof (U _ _ _ Ht E2). subst more.
    exists e, t. split; [assumption|]. split; [exact Ht|]. split; [assumption|].
    rewrite E2, compile_written in K by assumption. injection K as <- <-. auto.
Qed.

(** Two trees with the same written form are compiled to the same elements. *)
Lemma written_rpn a b : reading a -> reading b -> written a = written b -> rpn a = rpn b.
Proof.
  intros Ra Rb E. pose proof (compile_written a T_EOF Ra (or_introl eq_refl) []) as H.
  rewrite E, (compile_written b T_EOF Rb (or_introl eq_refl) []) in H. injection H as H.
  apply app_inj_tail in H. symmetry. apply H.
Qed.

(** A successful compilation leaves an empty operator stack, except on an empty formula. *)
Lemma pop_all_nil rex ops rex' ops' : pop_all rex ops = P_ok rex' ops' -> ops' = [].
Proof.
  revert rex. induction ops as [|a ops IH]; intros rex; cbn [pop_all]; [congruence|].
  destruct (save_op a rex); [apply IH|discriminate].
Qed.
Lemma gen_ok_stack : forall n toks rex ops par beg start x o, (length toks <= n)%nat ->
  gen toks rex ops par beg start = (C_ok x, o) ->
  o = [] \/ (start = true /\ o = ops /\ exists t more, endtok t /\ toks = t :: more).
Proof.
  induction n as [|n IH]; intros [|t toks] rex ops par beg start x o L; cbn [length] in L; try lia;
    try (cbn [gen]; discriminate).
  assert (K : forall toks' rex ops par beg, (length toks' <= n)%nat ->
      gen toks' rex ops par beg false = (C_ok x, o) -> o = []).
  { intros. edestruct IH as [?|[? ?]]; eauto. discriminate. }
  assert (End : endtok t -> gen (t :: toks) rex ops par beg start = (C_ok x, o) ->
    o = [] \/ (start = true /\ o = ops /\ exists t0 more, endtok t0 /\ t :: toks = t0 :: more)).
  { intros E. assert (G : gen (t :: toks) rex ops par beg start =
      if start then (C_ok (rev (A_EOE :: rex)), ops) else if beg then (C_err, ops)
      else if negb (par =? 0) then (C_err, ops)
      else match pop_all rex ops with P_ok rex' ops' => (C_ok (rev (A_EOE :: rex')), ops') | P_err ops' => (C_err, ops') end)
      by (destruct E; subst; reflexivity).
    rewrite G. destruct start; [intros H; injection H as _ <-; right; split; [reflexivity|split; [reflexivity|exists t, toks; auto]]|].
    clear G. destruct beg; [intros H; discriminate H|]. destruct (negb (par =? 0)); [intros H; discriminate H|].
    destruct (pop_all rex ops) eqn:P; [|intros H; discriminate H]. intros H. injection H as _ <-. left. eapply pop_all_nil; eauto. }
  destruct t; cbn [gen value_atom fn_token]; try discriminate; auto; try (apply End; unfold endtok; auto; fail); clear End; intros H; left;
    repeat first
      [ discriminate
      | match type of H with gen _ _ _ _ _ false = _ => eapply K; [|exact H]; cbn [length] in L; lia end
      | match type of H with context [match ?b with _ => _ end] => destruct b eqn:? end ].
Qed.

(** A session: formulas compiled one after the other, sharing the operator stack. *)
Definition session (history : list str) : ostack := fold_left (fun ops t => snd (compile_text t ops)) history [].
Lemma text_ok_stack text ops x : fst (compile_text text ops) = C_ok x ->
  snd (compile_text text ops) = [] \/ (snd (compile_text text ops) = ops /\ (lex text = [T_EOF] \/ lex text = [T_EOE])).
Proof.
  destruct (compile_text text ops) as [r o] eqn:E. cbn [fst snd]. intros ->. unfold compile_text, compile_tokens in E.
  apply gen_ok_stack with (n := length (lex text)) in E; [|lia].
  destruct E as [->|(_ & -> & t & more & Ht & E)]; [auto|].
  right. split; [reflexivity|]. destruct (lex_ends text) as (l & u & E2 & _ & Hin). rewrite E in E2.
  destruct l as [|v l]; [injection E2 as <- ->; destruct Ht; subst; auto|].
  injection E2 as <- _. destruct (Hin t) as (? & ? & _); [left; reflexivity|]. destruct Ht; contradiction.
Qed.
Lemma session_app h t : session (h ++ [t]) = snd (compile_text t (session h)).
Proof. unfold session. rewrite fold_left_app. reflexivity. Qed.
Lemma session_ok history :
  (forall h t rest, history = h ++ t :: rest -> exists x, fst (compile_text t (session h)) = C_ok x) ->
  session history = [].
Proof.
  induction history as [|t h IH] using rev_ind; intros H; [reflexivity|].
  assert (S0 : session h = []).
  { apply IH. intros h0 t0 rest ->. apply (H h0 t0 (rest ++ [t])). rewrite <- app_assoc. reflexivity. }
  rewrite session_app. destruct (H h t [] eq_refl) as [x Hx].
  destruct (text_ok_stack _ _ _ Hx) as [->|[-> _]]; auto.
Qed.
Lemma session_reset history t x : fst (compile_text t (session history)) = C_ok x ->
  lex t <> [T_EOF] -> lex t <> [T_EOE] -> session (history ++ [t]) = [].
Proof.
  intros H N1 N2. rewrite session_app. destruct (text_ok_stack _ _ _ H) as [->|[_ [|]]]; auto; contradiction.
Qed.
