(** Proofs about the wildcard matcher. *)
From Coq Require Import ZArith Ascii String List Bool Lia.
From Verif Require Import M_Base M_Names M_Lex S_Names L_Names M_Kdb M_Grep S_Grep.
Import ListNotations.
Open Scope Z_scope.

Lemma word_char_iff c : word_char c = true <-> alphanumerical c.
Proof.
  unfold word_char, alphanumerical, isalpha, isdigit, isupper, islower.
  rewrite !orb_true_iff, !andb_true_iff, !Z.leb_le, Z.eqb_eq. lia.
Qed.
Lemma is_word_iff w c : is_word w c <-> word_char c = w.
Proof.
  unfold is_word. destruct w; rewrite <- word_char_iff; destruct (word_char c); intuition congruence.
Qed.

Lemma same_char_iff e a b : same_char e a b = true <-> alike e a b.
Proof.
  unfold same_char, alike. destruct e.
  - rewrite Ascii.eqb_eq. intuition discriminate.
  - rewrite Ascii.eqb_eq, upper_same. split.
    + intros H. destruct H; [now left| |]; right; (split; [reflexivity|]); lia.
    + intros [->|[_ [[H1 H2]|[H1 H2]]]]; [apply sl_eq|now apply sl_ul|apply sl_lu; lia].
Qed.

(** The beginning flag is irrelevant without edge items, and at the end of the text. *)
Lemma lang_start e r : forall s b b', existsb is_edge r = false -> lang e b r s -> lang e b' r s.
Proof.
  induction r as [|i r IH]; intros s b b' E H; [exact H|].
  cbn in E. apply orb_false_iff in E. destruct E as [E1 E2].
  destruct i; cbn in *; try discriminate; try exact H.
  destruct H as (u & v & -> & H). exists u, v. split; [reflexivity|]. eapply IH; eassumption.
Qed.
Lemma lang_nil e r : forall b b', lang e b r [] -> lang e b' r [].
Proof.
  induction r as [|i r IH]; intros b b' H; [exact H|].
  destruct i; cbn in *.
  - destruct H as (u & v & E & H). symmetry in E. apply app_eq_nil in E. destruct E as [-> ->].
    exists [], []. split; [reflexivity|]. eapply IH; eassumption.
  - destruct H as (? & v & E & _). discriminate.
  - destruct H as (? & v & E & _). discriminate.
  - destruct H as [(? & v & E & _)|[_ H]]; [discriminate|]. right. split; [now right|]. eapply IH; eassumption.
  - destruct H as (? & v & E & _). discriminate.
Qed.
Lemma lang_nil_empty e r : forall b, lang e b r [] -> forallb may_be_empty r = true.
Proof.
  induction r as [|i r IH]; intros b H; [reflexivity|].
  destruct i; cbn in *; try (destruct H as (? & v & E & _); discriminate).
  - destruct H as (u & v & E & H). symmetry in E. apply app_eq_nil in E. destruct E as [-> ->]. eapply IH; eassumption.
  - destruct H as [(? & v & E & _)|[_ H]]; [discriminate|]. eapply IH; eassumption.
Qed.

Lemma ordinary_codes all : ordinary all ->
  (code all =? 92) = false /\ (code all =? 63) = false /\ (code all =? 64) = false /\
  (code all =? 38) = false /\ (code all =? 33) = false /\ (code all =? 124) = false.
Proof.
  unfold ordinary. cbn [In]. intros H. repeat split; apply Z.eqb_neq; intuition congruence.
Qed.
Lemma items_all all p : ordinary all -> only_all all p = true -> items all p = [Many].
Proof.
  intros O H. apply ordinary_codes in O. destruct O as (o1 & o2 & o3 & o4 & o5 & o6).
  destruct p as [|c [|d p]]; try discriminate. cbn in H. apply Ascii.eqb_eq in H. subst c.
  cbn [items]. rewrite o1, o2, o3, o4, o5, o6, Ascii.eqb_refl. reflexivity.
Qed.
Lemma lang_many e b s : lang e b [Many] s.
Proof. exists s, []. split; [now rewrite app_nil_r|reflexivity]. Qed.

(** What the flags of the code tell about the beginning of the text. *)
Definition flags_ok (its : list item) (s : str) (start nbeg first : bool) : Prop :=
  s <> [] -> existsb is_edge its = true ->
  match its with
  | Many :: _ => start = first
  | Edge _ :: _ => start = negb nbeg && first
  | _ => True
  end.

Lemma flags_later its s nbeg : flags_ok its s false nbeg false.
Proof.
  intros _ _. destruct its as [|[] ?]; auto. now rewrite andb_false_r.
Qed.

Section Run.
Variable ecase : bool.
Variable all : ascii.
Hypothesis Hall : ordinary all.

Definition scan (p' : str) : str -> bool -> res bool :=
  fix scan (s : str) (first : bool) : res bool :=
    match s with
    | [] => Ok false
    | _ :: s' =>
      do rc <- (if only_all all p' then Ok true else grep_loop ecase all p' s (negb first) true);
      if rc then Ok true else scan s' false
    end.

Lemma scan_cons p' x s' first : scan p' (x :: s') first =
  (do rc <- (if only_all all p' then Ok true else grep_loop ecase all p' (x :: s') (negb first) true);
   if rc then Ok true else scan p' s' false).
Proof. reflexivity. Qed.

Lemma lang_many_cons r start x s :
  lang ecase start (Many :: r) (x :: s) <->
  lang ecase start r (x :: s) \/ lang ecase false (Many :: r) s.
Proof.
  cbn [lang]. split.
  - intros (u & v & E & H). destruct u as [|y u]; cbn in E.
    + left. rewrite andb_true_r in H. now rewrite E.
    + right. injection E as -> ->. exists u, v. split; [reflexivity|].
      now rewrite andb_false_r in H.
  - intros [H|(u & v & -> & H)].
    + exists [], (x :: s). split; [reflexivity|]. now rewrite andb_true_r.
    + exists (x :: u), v. split; [reflexivity|]. now rewrite andb_false_r.
Qed.

Lemma grep_scan p' (IH : forall s start nbeg first b, tame (items all p') = true ->
    flags_ok (items all p') s start nbeg first ->
    grep_loop ecase all p' s nbeg first = Ok b -> (b = true <-> lang ecase start (items all p') s)) :
  tame (Many :: items all p') = true -> items all p' <> [] ->
  forall s start first b, (existsb is_edge (items all p') = true -> s <> [] -> start = first) ->
  scan p' s first = Ok b -> (b = true <-> lang ecase start (Many :: items all p') s).
Proof.
  intros T NE. cbn [tame] in T. apply andb_true_iff in T. destruct T as [T T3].
  apply andb_true_iff in T. destruct T as [T1 T2].
  assert (T1' : forallb may_be_empty (items all p') = false).
  { destruct (items all p'); [now contradict NE|]. now apply negb_true_iff in T1. }
  induction s as [|x s IHs]; intros start first b F E.
  - cbn in E. inversion E; subst b. split; [discriminate|].
    cbn [lang]. intros (u & v & E' & H). symmetry in E'. apply app_eq_nil in E'. destruct E' as [-> ->].
    apply lang_nil_empty in H. congruence.
  - rewrite scan_cons in E. rewrite lang_many_cons.
    destruct (only_all all p') eqn:OA.
    + rewrite (items_all _ _ Hall OA) in T1'. discriminate.
    + destruct (grep_loop ecase all p' (x :: s) (negb first) true) as [r| |] eqn:G; try discriminate.
      cbn [rbind] in E.
      assert (Fl : flags_ok (items all p') (x :: s) start (negb first) true).
      { intros Ns Ed. specialize (F Ed Ns). subst start.
        destruct (items all p') as [|[] ?]; auto; cbn [negb].
        - rewrite Ed in T2. discriminate.
        - now rewrite negb_involutive, andb_true_r. }
      pose proof (IH _ _ _ _ _ T3 Fl G) as R.
      destruct r.
      * inversion E; subst b. split; [|auto]. intros _. left. now apply R.
      * apply (IHs false) in E; [|intros; reflexivity]. rewrite E. split.
        -- auto.
        -- intros [H|H]; [|exact H]. apply R in H. discriminate.
Qed.

Lemma grep_loop_iff n : forall p, (length p <= n)%nat -> hanging p = false ->
  forall s start nbeg first b, tame (items all p) = true ->
  flags_ok (items all p) s start nbeg first ->
  grep_loop ecase all p s nbeg first = Ok b ->
  (b = true <-> lang ecase start (items all p) s).
Proof.
  induction n as [|n IHn]; intros p Hp Hg s start nbeg first b T F E.
  { destruct p as [|c p]; [|cbn in Hp; lia]. cbn in *. inversion E; subst b.
    destruct s; intuition congruence. }
  destruct p as [|c p].
  { cbn in *. inversion E; subst b. destruct s; intuition congruence. }
  cbn [length] in Hp. assert (Hp' : (length p <= n)%nat) by lia.
  assert (IHp : (code c =? 92) = false -> forall s start nbeg first b,
    tame (items all p) = true -> flags_ok (items all p) s start nbeg first ->
    grep_loop ecase all p s nbeg first = Ok b -> (b = true <-> lang ecase start (items all p) s)).
  { intros C. apply IHn; [exact Hp'|]. cbn [hanging] in Hg. now rewrite C in Hg. }
  (* the one character items *)
  assert (One_step : forall (ok : ascii -> bool) (P : ascii -> Prop), (forall x, ok x = true <-> P x) -> (code c =? 92) = false ->
     tame (items all p) = true ->
     match s with [] => Ok false | x :: s' => if ok x then grep_loop ecase all p s' nbeg false else Ok false end = Ok b ->
     (b = true <-> exists x v, s = x :: v /\ P x /\ lang ecase false (items all p) v)).
  { intros ok P OK C Tp Es. specialize (IHp C). destruct s as [|x s].
    - inversion Es; subst b. split; [discriminate|]. intros (x & v & E' & _). discriminate.
    - destruct (ok x) eqn:K.
      + rewrite (IHp s false nbeg false b Tp (flags_later _ _ _) Es). split.
        * intros L. exists x, s. repeat split; auto. now apply OK.
        * intros (y & v & E' & _ & L). inversion E'. now subst.
      + inversion Es; subst b. split; [discriminate|]. intros (y & v & E' & H & _).
        inversion E'; subst. apply OK in H. congruence. }
  cbn [grep_loop] in E. cbn [items] in *.
  destruct (code c =? 92) eqn:C1.
  { destruct p as [|d p].
    - destruct s; inversion E; subst b; cbn [lang]; intuition congruence.
    - destruct s as [|x s].
      + inversion E; subst b. split; [discriminate|]. intros (y & v & E' & _). discriminate.
      + cbn [tame] in T. destruct (same_char ecase x d) eqn:K.
        * assert (Hd : (length p <= n)%nat) by (cbn in Hp; lia).
          assert (Hh : hanging p = false) by (cbn [hanging] in Hg; now rewrite C1 in Hg).
          rewrite (IHn p Hd Hh s false nbeg false b T (flags_later _ _ _) E). cbn [lang]. split.
          -- intros L. exists x, s. repeat split; auto. now apply same_char_iff.
          -- intros (y & v & E' & _ & L). inversion E'. now subst.
        * inversion E; subst b. split; [discriminate|]. intros (y & v & E' & H & _). inversion E'; subst.
          apply same_char_iff in H. congruence. }
  specialize (IHp eq_refl). pose proof (fun ok P h => One_step ok P h eq_refl) as One_step'. clear One_step. rename One_step' into One_step.
  destruct (code c =? 63) eqn:C2.
  { cbn [tame lang] in *.
    rewrite (One_step (fun _ => true) (fun _ => True)); [|intuition|exact T|exact E].
    split; intros (x & v & ? & ?); exists x, v; intuition. }
  destruct (code c =? 64) eqn:C3.
  { cbn [tame lang] in *. apply (One_step word_char); [|exact T|exact E].
    intros x. now rewrite is_word_iff. }
  destruct (code c =? 38) eqn:C4.
  { cbn [tame lang] in *. destruct s as [|x s]; [discriminate|].
    apply (One_step (fun x => negb (word_char x))); [|exact T|].
    - intros y. rewrite is_word_iff. apply negb_true_iff.
    - now destruct (word_char x). }
  destruct ((code c =? 33) || (code c =? 124)) eqn:C5.
  { set (w := code c =? 124) in *.
    assert (Ei : (if w then Edge true else if code c =? 33 then Edge false else if Ascii.eqb c all then Many else Lit c)
                 = Edge w).
    { unfold w in *. destruct (code c =? 124); [reflexivity|]. rewrite orb_false_r in C5. now rewrite C5. }
    rewrite Ei in *. clear Ei. cbn [tame] in T. apply andb_true_iff in T. destruct T as [T1 T2].
    destruct s as [|x s].
    - cbn [lang].
      assert (F' : flags_ok (items all p) [] start nbeg first) by (intros N; now contradict N).
      rewrite (IHp _ start _ _ _ T2 F' E). split.
      + intros L. right. auto.
      + intros [(y & v & E' & _)|[_ L]]; [discriminate|exact L].
    - assert (OA : only_all all ((if code c =? 33 then chr 38 else chr 64) :: p) = false).
      { apply ordinary_codes in Hall. destruct Hall as (_ & _ & o3 & o4 & _).
        destruct p; [|reflexivity]. cbn [only_all]. apply Ascii.eqb_neq. intros <-.
        destruct (code c =? 33); [apply Z.eqb_neq in o4; now apply o4 | apply Z.eqb_neq in o3; now apply o3]. }
      rewrite OA in E.
      specialize (F ltac:(discriminate) ltac:(reflexivity)). cbn in F.
      (* first attempt: one character *)
      assert (R1 : forall rc,
         (if eqb (word_char x) w then grep_loop ecase all p s (negb first) false else Ok false) = Ok rc ->
         (rc = true <-> exists y v, x :: s = y :: v /\ is_word w y /\ lang ecase false (items all p) v)).
      { intros rc G. destruct (eqb (word_char x) w) eqn:K.
        - apply eqb_prop in K.
          rewrite (IHp s false _ false rc T2 (flags_later _ _ _) G). split.
          + intros L. exists x, s. repeat split; auto. now apply is_word_iff.
          + intros (y & v & E' & _ & L). inversion E'. now subst.
        - inversion G; subst rc. split; [discriminate|]. intros (y & v & E' & H & _).
          inversion E'; subst. apply is_word_iff in H. rewrite H, eqb_reflx in K. discriminate. }
      destruct (if eqb (word_char x) w then grep_loop ecase all p s (negb first) false else Ok false)
        as [rc| |] eqn:G; try discriminate.
      specialize (R1 rc eq_refl). cbn [rbind] in E. cbn [lang].
      destruct rc.
      + inversion E; subst b. split; [|auto]. intros _. left. now apply R1.
      + rewrite <- F in E. destruct start.
        * destruct (only_all all p) eqn:OA2.
          -- inversion E; subst b. split; [|auto]. intros _. right. split; [auto|].
             rewrite (items_all _ _ Hall OA2). apply lang_many.
          -- assert (F' : flags_ok (items all p) (x :: s) true true true).
             { intros _ _. destruct (items all p) as [|[] ?]; auto. }
             rewrite (IHp _ true _ _ _ T2 F' E). split; [auto|].
             intros [H|[_ H]]; [|exact H]. apply R1 in H. discriminate.
        * inversion E; subst b. split; [discriminate|].
          intros [H|[[H|H] _]]; try discriminate. apply R1 in H. discriminate. }
  apply orb_false_iff in C5. destruct C5 as [C5 C6]. rewrite C5, C6 in *.
  destruct (Ascii.eqb c all) eqn:C7.
  { destruct p as [|d p].
    - inversion E; subst b. split; [intros _; apply lang_many|auto].
    - change ((scan (d :: p)) s first = Ok b) in E.
      assert (NE : items all (d :: p) <> []).
      { cbn [items]. cbn [hanging] in Hg. rewrite C1 in Hg.
        destruct (code d =? 92); [|discriminate]. destruct p; discriminate. }
      refine (grep_scan (d :: p) IHp T NE s start first b _ E).
      intros H1 H2. apply F; auto. }
  cbn [tame lang] in *. apply (One_step (fun x => same_char ecase x c)); [|exact T|exact E].
  intros x. apply same_char_iff.
Qed.
End Run.
