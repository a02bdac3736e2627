(** Lemmas on the ASCII files: the reader on the texts that are written, and the loop on the objects. *)
From Coq Require Import ZArith Ascii String List Bool Sorted Lia Floats.SpecFloat.
From Verif Require Import M_Base M_Time M_Names M_Lex M_Compile M_Bytes M_Exec M_Double M_Decimal M_Kdb M_Ascii
  S_Names S_Ascii L_Time L_Names L_Kdb.
Import ListNotations.
Open Scope Z_scope.

Lemma delivered_printable s : forall col, printable s -> delivered col s = s.
Proof.
  induction s as [|c s IH]; intros col H; [reflexivity|]. inversion H as [|x l Hc Hs]; subst. cbn [delivered].
  destruct (32 <=? code c) eqn:E; [f_equal; apply IH; exact Hs|].
  destruct (code c =? 9) eqn:E9; [lia|]. destruct (code c =? 10) eqn:E10; [f_equal; apply IH; exact Hs|lia].
Qed.
Lemma printable_app a b : printable a -> printable b -> printable (a ++ b).
Proof. intros A B. apply Forall_app. split; assumption. Qed.
Lemma printable_escaped t : printable t -> printable (escaped t).
Proof.
  induction t as [|c t IH]; intros H; [constructor|]. inversion H as [|x l Hc Ht]; subst. cbn [escaped].
  destruct ((code c =? 34) || (code c =? 92)).
  - constructor; [left; cbn; lia|]. constructor; [exact Hc|apply IH; exact Ht].
  - constructor; [exact Hc|apply IH; exact Ht].
Qed.
Lemma accepted_printable ty n : accepted ty n -> printable n.
Proof.
  intros (c & r & -> & _ & A & B). constructor.
  - left. destruct A as [A|A]; [destruct ty; cbn in A|]; lia.
  - eapply Forall_impl; [|exact B]. intros x Hx. left. destruct Hx as [Hx|[Hx|[Hx|Hx]]]; [destruct ty; cbn in Hx| | |]; lia.
Qed.

(** strings *)
Lemma no_control_tail c t : no_control (c :: t) -> no_control t.
Proof. intros H a d b E. apply (H (c :: a) d b). cbn. rewrite E. reflexivity. Qed.
Lemma control_None c : ~ control_letter c -> control c = None.
Proof.
  unfold control, control_letter. intros H. destruct (code c =? 91) eqn:A; [lia|].
  destruct ((65 <=? code c) && (code c <=? 90)) eqn:B; [lia|].
  destruct ((97 <=? code c) && (code c <=? 122)) eqn:C; [lia|]. reflexivity.
Qed.
Lemma code_eq c z : 0 <= z < 256 -> code c = z -> c = chr z.
Proof. intros R E. apply code_inj. rewrite code_chr by exact R. exact E. Qed.
Lemma read_escaped t : forall r, no_control t -> read_string (escaped t ++ QUOTE :: r) = Some (t, r).
Proof.
  induction t as [|c t IH]; intros r H; [reflexivity|].
  pose proof (IH r (no_control_tail _ _ H)) as R. cbn [escaped].
  destruct ((code c =? 34) || (code c =? 92)) eqn:E.
  - cbn [app read_string]. change (code BSL =? 92) with true. cbv iota.
    replace (escape c) with (Some c); [rewrite R; reflexivity|]. unfold escape.
    apply orb_true_iff in E as [E|E]; apply Z.eqb_eq in E; rewrite E; reflexivity.
  - cbn [app read_string]. apply orb_false_iff in E as [E1 E2]. rewrite E2, E1.
    destruct (code c =? 94) eqn:E3; [|rewrite R; reflexivity].
    apply Z.eqb_eq in E3. assert (c = CARET) as -> by (apply code_eq; [lia|exact E3]).
    assert (N : exists d u, escaped t ++ QUOTE :: r = d :: u /\ control d = None).
    { destruct t as [|d t']; [exists QUOTE, r; split; reflexivity|]. cbn [escaped].
      destruct ((code d =? 34) || (code d =? 92)) eqn:Ed.
      - exists BSL, (d :: escaped t' ++ QUOTE :: r). split; reflexivity.
      - exists d, (escaped t' ++ QUOTE :: r). split; [reflexivity|]. apply control_None. apply (H [] d t'). reflexivity. }
    destruct N as (d & u & N1 & N2). rewrite N1, N2, <- N1, R. reflexivity.
Qed.
Lemma escaped_unquoted t : unquoted t -> escaped t = t.
Proof.
  unfold unquoted. induction t as [|c t IH]; intros [A B]; [reflexivity|]. cbn [escaped].
  destruct ((code c =? 34) || (code c =? 92)) eqn:E.
  - exfalso. apply orb_true_iff in E as [E|E]; apply Z.eqb_eq in E.
    + apply A. left. apply code_eq; [lia|exact E].
    + apply B. left. apply code_eq; [lia|exact E].
  - f_equal. apply IH. split; intros X; [apply A|apply B]; right; exact X.
Qed.

(** tokens *)
Definition blanks (s : str) : Prop := Forall (fun c => isspace c = true) s.
Lemma skip_blanks a s : blanks a -> skip_spaces (a ++ s) = skip_spaces s.
Proof. induction a as [|c a IH]; intros H; [reflexivity|]. inversion H as [|x l Hc Ha]; subst. cbn. rewrite Hc. apply IH; exact Ha. Qed.
Lemma lex_eof keys a t0 w0 : blanks a ->
  lex keys (mkY a t0 w0 false) = Done (L_TYPE Y_EOF, mkY [] Y_EOF w0 false).
Proof.
  intros H. unfold lex. cbn [lex_loop]. unfold yread. cbn [reread rest].
  replace a with (a ++ []) by apply app_nil_r. rewrite (skip_blanks a [] H). reflexivity.
Qed.
Lemma lex_string keys a t r t0 w0 : blanks a -> no_control t -> Z.of_nat (length t) < 40000 ->
  lex keys (mkY (a ++ quoted t ++ r) t0 w0 false) = Done (L_TYPE Y_STRING, mkY r Y_STRING t false).
Proof.
  intros B N L. unfold lex. cbn [lex_loop]. unfold yread. cbn [reread rest].
  rewrite (skip_blanks a _ B). unfold quoted. cbn [app skip_spaces].
  change (isspace QUOTE) with false. change (code QUOTE =? 34) with true. cbv iota.
  rewrite <- app_assoc. cbn [app]. rewrite (read_escaped t r N). unfold fits, TEXT_MAX.
  replace (Z.of_nat (length t) <? 40000) with true by lia. reflexivity.
Qed.
Lemma lex_word keys a c w r t0 w0 : blanks a -> word_first c = true -> forallb is_word_char w = true -> word_ends r ->
  Z.of_nat (length (c :: w)) < 40000 -> ~ In (c :: w) keys ->
  lex keys (mkY (a ++ (c :: w) ++ r) t0 w0 false) = Done (L_TYPE Y_WORD, mkY r Y_WORD (c :: w) false).
Proof.
  intros B C W E L K. destruct (word_first_not c C) as (A1 & A2 & A3 & A4 & A5 & A6).
  unfold lex. cbn [lex_loop]. unfold yread. cbn [reread rest].
  rewrite (skip_blanks a _ B). cbn [app skip_spaces]. rewrite A1, A2, A3, A4, A5, A6.
  unfold word_first in C. rewrite C.
  change (c :: w ++ r) with ((c :: w) ++ r). rewrite span_app; [| |exact E].
  - unfold fits, TEXT_MAX. replace (Z.of_nat (length (c :: w)) <? 40000) with true by lia. cbn [ibind token text].
    replace (existsb (str_eqb (c :: w)) keys) with false; [reflexivity|]. symmetry. apply not_true_is_false.
    intros X. apply existsb_exists in X as (k & Hk & Ek). apply str_eqb_iff in Ek. subst k. exact (K Hk).
  - cbn. rewrite W, andb_true_r. unfold is_word_char. apply orb_true_iff in C as [C|C]; rewrite C; [reflexivity|].
    rewrite !orb_true_r. reflexivity.
Qed.
Lemma lex_name ty keys a n r t0 w0 : blanks a -> accepted ty n -> ~ In (chr 35) n -> ~ In n keys ->
  lex keys (mkY (a ++ n ++ SP :: r) t0 w0 false) = Done (L_TYPE Y_WORD, mkY (SP :: r) Y_WORD n false).
Proof.
  intros B A S K. pose proof A as (c & w & -> & Len & _).
  assert (S' : ~ In (chr 35) w) by (intros H; apply S; right; exact H).
  destruct (accepted_word _ _ _ A S') as (H1 & H2 & H3).
  apply lex_word; auto; [|lia]. intros d u E. injection E as <- _. reflexivity.
Qed.

(** A token that is given back is read again. *)
Lemma lex_again keys y l y' : lex keys y = Done (l, y') -> (l = L_TYPE Y_EOF \/ l = L_TYPE Y_WORD) -> typ y' = match l with L_TYPE t => t | _ => Y_NONE end ->
  ~ In (text y') keys ->
  lex keys (unread y') = Done (l, mkY (rest y') (typ y') (text y') false).
Proof.
  intros _ H T K. unfold lex, unread. cbn [lex_loop rest]. unfold yread. cbn [reread rest typ text ibind].
  rewrite T. destruct H as [-> | ->]; [reflexivity|]. cbn [ibind].
  replace (existsb (str_eqb (text y')) keys) with false; [reflexivity|]. symmetry. apply not_true_is_false.
  intros X. apply existsb_exists in X as (k & Hk & Ek). apply str_eqb_iff in Ek. subst k. exact (K Hk).
Qed.

(** names *)
Lemma accepted_key ty n : accepted ty n -> to_key (mode_of ty) n = n.
Proof.
  intros A. pose proof A as (c & r & -> & _ & Ac & Ar).
  assert (NB : forall x, In x (c :: r) -> isspace x = false).
  { intros x [<-|Hx].
    - destruct Ac as [Ac|Ac]; [destruct ty; cbn in Ac|]; unfold isspace; lia.
    - rewrite Forall_forall in Ar. destruct (Ar x Hx) as [B|[B|[B|B]]]; [destruct ty; cbn in B| | |]; unfold isspace; lia. }
  assert (D : forall s, (forall x, In x s -> isspace x = false) -> drop_blanks s = s).
  { intros [|x s] H; [reflexivity|]. cbn. rewrite (H x (or_introl eq_refl)). reflexivity. }
  assert (T : trim (c :: r) = c :: r).
  { unfold trim. rewrite (D (c :: r) NB). rewrite D; [apply rev_involutive|]. intros x Hx. apply NB. apply in_rev. exact Hx. }
  assert (U : forall f, (forall x, In x (c :: r) -> f x = x) -> map f (c :: r) = c :: r).
  { intros f H. rewrite <- (map_id (c :: r)) at 2. apply map_ext_in. exact H. }
  unfold to_key. rewrite T. rewrite Forall_forall in Ar.
  destruct ty; cbn [mode_of]; try reflexivity; apply U; intros x [<-|Hx]; unfold toupper, tolower, islower, isupper;
    try (destruct Ac as [Ac|Ac]; cbn in Ac; match goal with |- (if ?b then _ else _) = _ => replace b with false by lia end; reflexivity);
    destruct (Ar x Hx) as [B|[B|[B|B]]]; cbn in B; match goal with |- (if ?b then _ else _) = _ => replace b with false by lia end; reflexivity.
Qed.
Lemma set_accepted {V} ty (db : smap V) n v : accepted ty n -> set_in ty db n v = Some (put n v db).
Proof.
  intros A. unfold set_in. rewrite (accepted_key ty n A). pose proof A as (c & r & -> & _).
  apply check_name_iff in A. rewrite A. reflexivity.
Qed.
Lemma oname_accepted ty n : accepted ty n -> oname n = n.
Proof. intros (c & r & -> & L & _). unfold oname. apply firstn_all2. exact L. Qed.

(** Putting in the order of the names. *)
Lemma put_last {V} (l : smap V) k v : StronglySorted str_lt (keys l ++ [k]) -> put k v l = l ++ [(k, v)].
Proof.
  induction l as [|[k' v'] l IH]; intros H; [reflexivity|]. cbn in H. inversion H as [|a b H1 H2]; subst.
  assert (L : str_lt k' k) by (rewrite Forall_forall in H2; apply H2; apply in_or_app; right; left; reflexivity).
  cbn [put]. destruct (str_ltb k k') eqn:E.
  - exfalso. apply (str_lt_irrefl k). eapply str_lt_trans; [exact E|exact L].
  - destruct (str_eqb k k') eqn:E2.
    + exfalso. apply str_eqb_iff in E2. subst. exact (str_lt_irrefl _ L).
    + cbn [app]. f_equal. apply IH. exact H1.
Qed.
Definition puts {V} (l : list (str * V)) (db : smap V) : smap V := fold_left (fun d x => put (fst x) (snd x) d) l db.
Lemma puts_sorted {V} (l : list (str * V)) : forall db, StronglySorted str_lt (keys db ++ map fst l) -> puts l db = db ++ l.
Proof.
  induction l as [|[k v] l IH]; intros db H; [symmetry; apply app_nil_r|]. unfold puts in *. cbn [fold_left fst snd].
  cbn [map fst] in H.
  assert (P : put k v db = db ++ [(k, v)]).
  { apply put_last. clear -H. induction (keys db) as [|x a IHa]; cbn in *.
    - constructor; constructor.
    - inversion H; subst. constructor; [auto|]. apply Forall_app. apply Forall_app in H3 as [A B]. inversion B; subst.
      split; [exact A|]. constructor; [assumption|constructor]. }
  rewrite P, IH; [rewrite <- app_assoc; reflexivity|].
  unfold keys in *. rewrite map_app. cbn [map fst]. rewrite <- app_assoc. exact H.
Qed.

(** * The loop *)
Section Loop.
Context {V W : Type} (ty : otype) (keys : list str) (body : V -> str) (image : V -> W)
  (object : smap W -> str -> yy -> io (smap W * bool * yy)).
Let record (x : str * V) : str := fst x ++ SP :: body (snd x).
Definition file_of (l : list (str * V)) : str := flat_map record l.
(** The objects [l] are to be read. *)
Definition at_objects (l : list (str * V)) (y : yy) : Prop :=
  match l with
  | [] => exists y', lex keys y = Done (L_TYPE Y_EOF, y')
  | (n, v) :: l' => lex keys y = Done (L_TYPE Y_WORD, mkY (SP :: body v ++ file_of l') Y_WORD n false)
  end.
Definition readable (good : V -> Prop) : Prop := forall n v l db,
  good v -> accepted ty n -> (forall m, In m (map fst l) -> accepted ty m /\ ~ In (chr 35) m /\ ~ In m keys) ->
  exists y, object db n (mkY (SP :: body v ++ file_of l) Y_WORD n false) = Done (put n (image v) db, true, y) /\ at_objects l y.

Lemma at_start l a t0 w0 : blanks a -> (forall m, In m (map fst l) -> accepted ty m /\ ~ In (chr 35) m /\ ~ In m keys) ->
  at_objects l (mkY (a ++ file_of l) t0 w0 false).
Proof.
  intros B H. destruct l as [|[n v] l].
  - exists (mkY [] Y_EOF w0 false). cbn. rewrite app_nil_r. apply lex_eof. exact B.
  - unfold at_objects. cbn [file_of flat_map]. unfold record at 1. cbn [fst snd]. rewrite <- app_assoc. cbn [app].
    destruct (H n (or_introl eq_refl)) as (A & S & K). apply (lex_name ty keys a n (body v ++ flat_map record l)); assumption.
Qed.
Lemma at_unread l y : at_objects l y -> (forall m, In m (map fst l) -> accepted ty m /\ ~ In (chr 35) m /\ ~ In m keys) ->
  forall y', (exists t, lex keys y = Done (t, y')) -> typ y' = (match l with [] => Y_EOF | _ => Y_WORD end) -> at_objects l (unread y').
Proof.
  intros A H y' [t E] T. destruct l as [|[n v] l]; unfold at_objects in A.
  - destruct A as [y2 A]. rewrite A in E. injection E as <- <-. exists (mkY (rest y2) (typ y2) (text y2) false).
    unfold lex, unread. cbn [lex_loop]. unfold yread. cbn [reread rest typ text]. rewrite T. reflexivity.
  - rewrite A in E. injection E as <- <-. unfold at_objects. destruct (H n (or_introl eq_refl)) as (_ & _ & K).
    exact (lex_again keys y _ _ A (or_intror eq_refl) eq_refl K).
Qed.

Lemma load_objects (good : V -> Prop) : readable good -> forall l fuel db y,
  Forall good (map snd l) -> (forall m, In m (map fst l) -> accepted ty m /\ ~ In (chr 35) m /\ ~ In m keys) ->
  at_objects l y -> (length l < fuel)%nat ->
  load_loop fuel keys object db y = Done (true, puts (map (fun x => (fst x, image (snd x))) l) db).
Proof.
  intros R. induction l as [|[n v] l IH]; intros fuel db y G H A F; (destruct fuel as [|fuel]; [cbn in F; lia|]); cbn [load_loop].
  - destruct A as [y' A]. rewrite A. reflexivity.
  - unfold at_objects in A. rewrite A. cbn [ibind text]. cbn [map snd fst] in G, H. inversion G as [|? ? Gv Gl]; subst.
    destruct (H n (or_introl eq_refl)) as (An & _ & _). rewrite (oname_accepted ty n An).
    assert (H' : forall m, In m (map fst l) -> accepted ty m /\ ~ In (chr 35) m /\ ~ In m keys) by (intros m Hm; apply H; right; exact Hm).
    destruct (R n v l db Gv An H') as (y' & E & A'). rewrite E. cbn [ibind].
    rewrite (IH fuel _ y' Gl H' A'); [reflexivity|]. cbn in F. lia.
Qed.
Lemma file_length l : (length l <= length (file_of l))%nat.
Proof.
  induction l as [|[n v] l IH]; [cbn; lia|]. cbn [file_of flat_map]. unfold record at 1. cbn [fst snd].
  rewrite app_length, app_length. cbn [length]. unfold file_of in IH. lia.
Qed.
Lemma load_file (good : V -> Prop) (l : list (str * V)) : readable good ->
  StronglySorted str_lt (map fst l) -> Forall good (map snd l) ->
  (forall m, In m (map fst l) -> accepted ty m /\ ~ In (chr 35) m /\ ~ In m keys) -> printable (file_of l) ->
  load_loop (fuel_of (opened (file_of l))) keys object [] (opened (file_of l)) = Done (true, map (fun x => (fst x, image (snd x))) l).
Proof.
  intros R St G H P. rewrite (load_objects good R l _ [] _ G H).
  - rewrite puts_sorted; [reflexivity|]. cbn. rewrite map_map. cbn [fst]. exact St.
  - unfold opened. rewrite (delivered_printable _ 0 P). apply (at_start l [] Y_NONE []); [constructor|exact H].
  - unfold fuel_of, opened. cbn [rest]. rewrite (delivered_printable _ 0 P). pose proof (file_length l). lia.
Qed.
End Loop.

(** Skipping to the next name. *)
Lemma skip_to_name {V} ty keys (body : V -> str) l k stop y :
  at_objects keys body l y -> (forall m, In m (map fst l) -> accepted ty m /\ ~ In (chr 35) m /\ ~ In m keys) ->
  (forall m, In m (map fst l) -> stop m = true) ->
  (exists t w r, forall y', lex keys y = Done (L_TYPE Y_EOF, y') -> y' = mkY r t w false /\ t = Y_EOF) ->
  exists y3, skip_values (S k) keys stop y = Done y3 /\ at_objects keys body l y3.
Proof.
  intros A H St X. cbn [skip_values]. destruct l as [|[n v] l].
  - pose proof A as [y' E]. rewrite E. cbn [ibind]. exists (unread y'). split; [reflexivity|].
    apply (at_unread ty keys body [] y A H y'); [eexists; exact E|]. destruct X as (t & w & r & X). destruct (X y' E) as [-> ->]. reflexivity.
  - pose proof A as E. unfold at_objects in E. rewrite E. cbn [ibind text]. rewrite (St n (or_introl eq_refl)).
    eexists. split; [reflexivity|].
    apply (at_unread ty keys body ((n, v) :: l) y A H); [eexists; exact E|reflexivity].
Qed.

(** * Comments, lists, identities *)
Lemma blanks1 c : isspace c = true -> blanks [c].
Proof. intros H. constructor; [exact H|constructor]. Qed.
Lemma eof_shape keys r t0 w0 : blanks r -> exists t w r', forall y', lex keys (mkY r t0 w0 false) = Done (L_TYPE Y_EOF, y') -> y' = mkY r' t w false /\ t = Y_EOF.
Proof.
  intros B. exists Y_EOF, w0, []. intros y' E. rewrite (lex_eof keys r t0 w0 B) in E. injection E as <-. split; reflexivity.
Qed.
Lemma not_eof {V} keys (body : V -> str) n v l y : at_objects keys body ((n, v) :: l) y ->
  exists t w r, forall y', lex keys y = Done (L_TYPE Y_EOF, y') -> y' = mkY r t w false /\ t = Y_EOF.
Proof. intros A. exists Y_EOF, [], []. intros y' E. unfold at_objects in A. rewrite A in E. discriminate E. Qed.

Lemma texts_readable ty (f : str -> str) :
  readable ty [] (fun t => quoted (f t) ++ [LF]) (fun t => wrap (f t) 60) (read_text ty)
    (fun t => no_control (f t) /\ Z.of_nat (length (f t)) < 40000).
Proof.
  intros n v l db [N L] A H. unfold read_text.
  set (bd := fun t => quoted (f t) ++ [LF]). cbn beta. rewrite <- app_assoc.
  change (SP :: quoted (f v) ++ [LF] ++ file_of bd l) with ([SP] ++ quoted (f v) ++ [LF] ++ file_of bd l).
  rewrite (lex_string [] [SP] (f v) ([LF] ++ file_of bd l) Y_WORD n (blanks1 SP eq_refl) N L). cbn [ibind text].
  assert (K : at_objects [] bd l (mkY ([LF] ++ file_of bd l) Y_STRING (f v) false)).
  { apply (at_start ty [] bd); [exact (blanks1 LF eq_refl)|exact H]. }
  unfold fuel_of at 1. 
  destruct (skip_to_name ty [] bd l (S (2 * length (rest (mkY ([LF] ++ file_of bd l) Y_STRING (f v) false)))) any
    (mkY ([LF] ++ file_of bd l) Y_STRING (f v) false) K H (fun _ _ => eq_refl)) as (y3 & E3 & A3).
  { destruct l as [|[m u] l]; [|eapply not_eof; exact K]. apply eof_shape. exact (blanks1 LF eq_refl). }
  rewrite E3. cbn [ibind]. exists y3. split; [|exact A3].
  unfold add_or_skip. rewrite (set_accepted ty db n _ A). reflexivity.
Qed.

Lemma names_ok {V} ty (db : list (str * V)) keys : Forall (accepted ty) (map fst db) -> no_sharp db ->
  (forall m, In m (map fst db) -> ~ In m keys) ->
  forall m, In m (map fst db) -> accepted ty m /\ ~ In (chr 35) m /\ ~ In m keys.
Proof.
  intros A S K m Hm. rewrite Forall_forall in A. split; [apply A; exact Hm|]. split; [apply S; exact Hm|apply K; exact Hm].
Qed.
Lemma file_printable {V} ty (body : V -> str) (l : list (str * V)) : Forall (accepted ty) (map fst l) ->
  Forall (fun v => printable (body v)) (map snd l) -> printable (file_of body l).
Proof.
  induction l as [|[n v] l IH]; intros A B; [constructor|]. cbn [map fst snd] in *. inversion A; subst. inversion B; subst.
  cbn [file_of flat_map fst snd]. apply printable_app; [|apply IH; assumption].
  apply printable_app; [eapply accepted_printable; eassumption|]. constructor; [left; cbn; lia|assumption].
Qed.
Lemma quoted_printable t : printable t -> printable (quoted t ++ [LF]).
Proof.
  intros P. unfold quoted. cbn [app]. constructor; [left; cbn; lia|]. rewrite <- app_assoc. apply printable_app; [apply printable_escaped; exact P|].
  constructor; [left; cbn; lia|]. constructor; [right; reflexivity|constructor].
Qed.
Lemma load_texts_ok ty (f : str -> str) (db : list (str * str)) :
  database ty db -> no_sharp db ->
  Forall (fun t => printable (f t) /\ no_control (f t) /\ Z.of_nat (length (f t)) < 40000) (map snd db) ->
  load_texts ty (flat_map (fun x => fst x ++ SP :: quoted (f (snd x)) ++ [LF]) db) =
    Done (true, map (fun x => (fst x, wrap (f (snd x)) 60)) db).
Proof.
  intros [S A] N P. unfold load_texts.
  apply (load_file ty [] (fun t => quoted (f t) ++ [LF]) (fun t => wrap (f t) 60) (read_text ty)
    (fun t => no_control (f t) /\ Z.of_nat (length (f t)) < 40000) db (texts_readable ty f) S).
  - eapply Forall_impl; [|exact P]. cbn beta. intros t (_ & Q). exact Q.
  - apply names_ok; auto.
  - apply (file_printable ty); [exact A|]. eapply Forall_impl; [|exact P]. intros t (Q & _). apply quoted_printable. exact Q.
Qed.

Lemma idts_readable compiles :
  readable IDENTITIES [] (fun t => quoted t ++ [LF]) (fun t => identity_of compiles (wrap t 60)) (read_idt compiles)
    (fun t => no_control t /\ Z.of_nat (length t) < 40000).
Proof.
  intros n v l db [N L] A H. unfold read_idt.
  set (bd := fun t => quoted t ++ [LF]). cbn beta. rewrite <- app_assoc.
  change (SP :: quoted v ++ [LF] ++ file_of bd l) with ([SP] ++ quoted v ++ [LF] ++ file_of bd l).
  rewrite (lex_string [] [SP] v ([LF] ++ file_of bd l) Y_WORD n (blanks1 SP eq_refl) N L). cbn [ibind text].
  rewrite (set_accepted IDENTITIES db n _ A). eexists. split; [reflexivity|].
  apply (at_start IDENTITIES [] bd); [exact (blanks1 LF eq_refl)|exact H].
Qed.
Lemma load_identities_ok compiles (db : list (str * str)) :
  database IDENTITIES db -> no_sharp db -> Forall (fun t => plain t /\ unquoted t) (map snd db) ->
  load_identities compiles (save_identities db) = Done (true, map (fun x => (fst x, identity_of compiles (wrap (snd x) 60))) db).
Proof.
  intros [S A] N P. unfold load_identities.
  assert (E : save_identities db = file_of (fun t => quoted t ++ [LF]) db).
  { unfold save_identities, file_of. clear -P. induction db as [|[n t] db IH]; [reflexivity|]. cbn [map snd] in P. inversion P as [|? ? [_ U] P']; subst.
    cbn [flat_map fst snd]. f_equal; [|apply IH; exact P'].
    unfold quoted. rewrite (escaped_unquoted t U). cbn [app]. rewrite <- app_assoc. reflexivity. }
  rewrite E.
  apply (load_file IDENTITIES [] (fun t => quoted t ++ [LF]) _ (read_idt compiles)
    (fun t => no_control t /\ Z.of_nat (length t) < 40000) db (idts_readable compiles) S).
  - eapply Forall_impl; [|exact P]. cbn beta. intros t ((_ & Q) & _). exact Q.
  - apply names_ok; auto.
  - apply (file_printable IDENTITIES); [exact A|]. eapply Forall_impl; [|exact P]. intros t ((Q & _) & _). apply quoted_printable. exact Q.
Qed.
