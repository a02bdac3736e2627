(** The search of a path between an endogenous and an exogenous variable. *)
From Coq Require Import ZArith Ascii String List Bool Lia Relations.
From Verif Require Import M_Base M_Names M_Lex M_Bytes M_Order M_Exo2endo S_Order L_Order.
Import ListNotations.
Open Scope Z_scope.

Definition on (path : list bool) (k : nat) : Prop := nth_error path k = Some true.
Definition unmarked (path : list bool) : nat := length (filter negb path).

Lemma unmarked_mono : forall p q, length p = length q -> (forall k, on p k -> on q k) -> (unmarked q <= unmarked p)%nat.
Proof.
  induction p as [|b p IH]; intros [|c q] L H; try discriminate; [lia|].
  assert (IH' : (unmarked q <= unmarked p)%nat). { apply IH; [now inversion L|]. intros k. exact (H (S k)). }
  unfold unmarked in *. cbn. destruct b; cbn.
  - assert (Q := H 0%nat eq_refl). inversion Q. cbn. lia.
  - destruct c; cbn; lia.
Qed.
Lemma unmarked_put : forall p k, nth_error p k = Some false -> S (unmarked (put_at p k true)) = unmarked p.
Proof.
  induction p as [|b p IH]; intros [|k] H; try discriminate.
  - inversion H. reflexivity.
  - cbn in H. apply IH in H. unfold unmarked in *. cbn. destruct b; cbn; lia.
Qed.
Lemma unmarked_le p : (unmarked p <= length p)%nat.
Proof. unfold unmarked. induction p as [|b p IH]; cbn; [lia|]. destruct b; cbn; lia. Qed.

Section Search.
Variable vars dbe : list str.
Variable m : model.
Variable exo : Z.
Hypothesis L : linked m.
Hypothesis X : exact_tables m.
Hypothesis Names : forall k v, endo_of m k v -> exists nm, name_at vars v = Ok nm /\
  exists o, nth_error (objs m) k = Some o /\ objs_of dbe m nm = Ok o.
Hypothesis Exo0 : 0 <= exo < len (posrev m).
Hypothesis NotEndo : forall k, ~ endo_of m k exo.

Definition goes (i k : nat) : Prop := uses m i k /\ ~ occurs m i exo.

Record swapped (path path' : list bool) (e : nat) (v : Z) (m' : model) : Prop := {
  w_objs : objs m' = objs m;
  w_len : length (posxk m') = length (posxk m);
  w_lenr : length (posrev m') = length (posrev m);
  w_same : forall k, k <> e -> on path k \/ ~ on path' k -> nth_error (posxk m') k = nth_error (posxk m) k;
  w_occ : forall k w, endo_of m' k w -> endo_of m k w \/ occurs m k w;
  w_reach : exists k, clos_refl_trans nat goes e k /\ occurs m k exo;
  w_rev : forall k w, endo_of m' k w -> 0 <= w /\ nth_error (posrev m') (Z.to_nat w) = Some (Z.of_nat k);
  w_revr : forall x p, nth_error (posrev m') x = Some p -> -1 <= p < len (objs m);
  w_drop : exists d, (exists k, endo_of m k d) /\ (forall k, ~ endo_of m' k d) /\ (exists k, endo_of m' k exo) /\
     (forall w, w <> d -> w <> exo -> ((exists k, endo_of m k w) <-> (exists k, endo_of m' k w))) /\
     (on path e \/ ~ on path' e -> d = v)
}.

Definition explored (path' : list bool) (k : nat) : Prop := ~ occurs m k exo /\ forall j, uses m k j -> on path' j.

Record outcome (path : list bool) (e : nat) (v : Z) (r : res (model * list bool * bool)) : Prop := {
  r_ok : exists m' path' ok, r = Ok (m', path', ok) /\ length path' = length path /\
    (forall k, on path k -> on path' k) /\
    (forall k, ~ on path k -> on path' k -> clos_trans nat goes e k) /\
    (ok = true -> swapped path path' e v m') /\
    (ok = false -> m' = m /\ explored path' e /\ forall k, ~ on path k -> on path' k -> explored path' k)
}.

Lemma endo_unique k v w : endo_of m k v -> endo_of m k w -> v = w.
Proof. unfold endo_of. congruence. Qed.
Lemma endo_inj k j v : endo_of m k v -> endo_of m j v -> k = j.
Proof. intros A B. apply (l_endo m L) in A, B. destruct A as [_ A], B as [_ B]. rewrite A in B. inversion B. lia. Qed.
Lemma endo_lt k v : endo_of m k v -> (k < length (objs m))%nat.
Proof. intros H. unfold endo_of in H. apply nth_lt in H. now rewrite (l_len m L) in H. Qed.
Lemma on_dec p k : on p k \/ ~ on p k.
Proof. unfold on. destruct (nth_error p k) as [[|]|]; [left|right|right]; congruence. Qed.

Lemma gep_cases v : -1 <= v < len (posrev m) ->
  exists p, get_eq_position m v = Ok p /\ ((p < 0 /\ forall k, ~ endo_of m k v) \/ exists k, p = Z.of_nat k /\ endo_of m k v).
Proof.
  intros H. destruct (gep_ok m v L H) as (p & E & B). exists p. split; [exact E|].
  destruct (Z.lt_ge_cases p 0) as [Hp|Hp].
  - left. split; [exact Hp|]. intros k Hk. rewrite (gep_endo m v k L Hk) in E. inversion E. lia.
  - right. exists (Z.to_nat p). split; [lia|]. apply gep_sound; auto.
Qed.

Lemma contains_iff e o : nth_error (objs m) e = Some o -> contains o exo = true <-> occurs m e exo.
Proof.
  intros H. unfold contains. rewrite existsb_exists. split.
  - intros ([n p] & Hin & Q). cbn in Q. apply andb_true_iff in Q as [Q1 Q2]. apply negb_true_iff in Q1. apply Z.eqb_eq in Q2.
    subst p. exists o, n. auto.
  - intros (o' & n & H' & Hin & C). assert (o' = o) by congruence. subst o'. exists (n, exo). split; [exact Hin|]. cbn.
    now rewrite C, Z.eqb_refl.
Qed.

(** The assignment on the way back. *)
Lemma assign_ok m1 e p : (e < length (posxk m1))%nat -> 0 <= p < len (posrev m1) ->
  assign m1 (Z.of_nat e) p = Ok (mkM (objs m1) (put_at (posxk m1) e p) (put_at (posrev m1) (Z.to_nat p) (Z.of_nat e))).
Proof.
  intros He Hp. unfold assign. rewrite setz_ok by exact He. cbn [rbind]. unfold setz.
  destruct (Z.ltb_spec p 0); [lia|]. unfold len in Hp. destruct (Z.leb_spec (Z.of_nat (length (posrev m1))) p); [lia|]. reflexivity.
Qed.

(** The direct exchange. *)
Lemma direct path e v : endo_of m e v -> occurs m e exo ->
  exists m', assign m (Z.of_nat e) exo = Ok m' /\ swapped path path e v m'.
Proof.
  intros He Ho. assert (Hl := endo_lt e v He). eexists. split.
  { apply assign_ok; [rewrite (l_len m L); exact Hl|exact Exo0]. }
  assert (XK : forall k w, nth_error (put_at (posxk m) e exo) k = Some w <-> (k = e /\ w = exo) \/ (k <> e /\ endo_of m k w)).
  { intros k w. rewrite put_at_nth. destruct (Nat.eqb_spec e k) as [Ek|N].
    - subst k. destruct (Nat.ltb_spec e (length (posxk m))) as [Q|Q]; [|rewrite (l_len m L) in Q; lia].
      split; [intros R; inversion R; auto|]. intros [[_ ->]|[? _]]; congruence.
    - unfold endo_of. split; [intros R; right; auto|]. intros [[? _]|[_ R]]; [congruence|exact R]. }
  constructor; unfold endo_of; cbn [objs posxk posrev].
  - reflexivity.
  - apply put_at_length.
  - apply put_at_length.
  - intros k Hk _. rewrite put_at_nth. destruct (Nat.eqb_spec e k); [congruence|reflexivity].
  - intros k w Hw. apply XK in Hw as [[-> ->]|[_ H]]; [now right|now left].
  - exists e. split; [apply rt_refl|exact Ho].
  - intros k w Hw. apply XK in Hw as [[-> ->]|[Hk H]].
    + split; [lia|]. apply put_at_same. unfold len in Exo0. lia.
    + destruct (l_endo m L k w H) as [A B]. split; [exact A|]. rewrite put_at_nth.
      destruct (Nat.eqb_spec (Z.to_nat exo) (Z.to_nat w)) as [Q|Q]; [|exact B].
      exfalso. apply (NotEndo k). replace exo with w by lia. exact H.
  - intros x p Hx. rewrite put_at_nth in Hx. destruct (Nat.eqb_spec (Z.to_nat exo) x).
    + destruct (Nat.ltb (Z.to_nat exo) (length (posrev m))); [|discriminate]. inversion Hx. unfold len. lia.
    + now apply (l_rev m L) in Hx.
  - exists v. split; [exists e; exact He|]. split; [|split; [|split]].
    + intros k Hk. apply XK in Hk as [[-> E]|[Hk H]]; [subst v; now apply (NotEndo e)|]. apply Hk. now apply (endo_inj k e v).
    + exists e. apply XK. now left.
    + intros w Hw1 Hw2. split.
      * intros [k Hk]. exists k. apply XK. right. split; [|exact Hk]. intros ->. apply Hw1. now apply (endo_unique e).
      * intros [k Hk]. apply XK in Hk as [[_ Q]|[_ H]]; [congruence|eauto].
    + auto.
Qed.

(** One more step on the way back. *)
Lemma extend path path1 path' e k1 v pos m' : endo_of m e v -> e <> k1 -> ~ occurs m e exo -> endo_of m k1 pos -> occurs m e pos ->
  (forall k, on path k -> on path1 k) -> on path1 k1 -> ~ on path k1 -> (forall k, k <> k1 -> on path1 k -> on path k) ->
  (forall k, on path1 k -> on path' k) -> swapped path1 path' k1 pos m' ->
  exists m'', assign m' (Z.of_nat e) pos = Ok m'' /\ swapped path path' e v m''.
Proof.
  intros He Hne Hno Hk1 Hocc P1 P2 P3 P4 P5 W. assert (Hl := endo_lt e v He).
  assert (Hpos := l_endo m L k1 pos Hk1). destruct Hpos as [Hp0 Hp1].
  assert (Hu : goes e k1). { split; [|exact Hno]. split; [exact Hne|]. exists pos. auto. }
  eexists. split.
  { apply assign_ok; [rewrite (w_len _ _ _ _ _ W), (l_len m L); exact Hl|]. split; [exact Hp0|]. apply nth_lt in Hp1.
    unfold len. rewrite (w_lenr _ _ _ _ _ W). lia. }
  set (m2 := mkM _ _ _).
  assert (Hlx : (e < length (posxk m'))%nat) by (rewrite (w_len _ _ _ _ _ W), (l_len m L); exact Hl).
  destruct (nth_ex (posxk m') e Hlx) as [we Hwe]. fold (endo_of m' e we) in Hwe.
  destruct (w_drop _ _ _ _ _ W) as (d1 & _ & D2 & D3 & D4 & D5). rewrite (D5 (or_introl P2)) in *. clear D5 d1.
  assert (XK : forall k w, endo_of m2 k w <-> (k = e /\ w = pos) \/ (k <> e /\ endo_of m' k w)).
  { intros k w. unfold endo_of, m2. cbn [posxk]. rewrite put_at_nth. destruct (Nat.eqb_spec e k) as [Ek|N].
    - subst k. destruct (Nat.ltb_spec e (length (posxk m'))) as [Q|Q]; [|lia].
      split; [intros R; inversion R; auto|]. intros [[_ ->]|[? _]]; congruence.
    - split; [intros R; right; auto|]. intros [[? _]|[_ R]]; [congruence|exact R]. }
  assert (We1 : we <> pos). { intros E. apply (D2 e). now rewrite <- E. }
  assert (We2 : we <> exo).
  { intros E. destruct (w_occ _ _ _ _ _ W e we Hwe) as [Q|Q]; rewrite E in Q; [now apply (NotEndo e)|contradiction]. }
  assert (Inj : forall k w, endo_of m' k w -> w = we -> k = e).
  { intros k w Hk Ew. rewrite Ew in Hk. destruct (w_rev _ _ _ _ _ W k we Hk) as [_ A]. destruct (w_rev _ _ _ _ _ W e we Hwe) as [_ B].
    rewrite A in B. inversion B. lia. }
  constructor.
  - exact (w_objs _ _ _ _ _ W).
  - unfold m2; cbn [posxk]. rewrite put_at_length. exact (w_len _ _ _ _ _ W).
  - unfold m2; cbn [posrev]. rewrite put_at_length. exact (w_lenr _ _ _ _ _ W).
  - intros k Hk Hpath. unfold m2; cbn [posxk]. rewrite put_at_nth. destruct (Nat.eqb_spec e k); [congruence|].
    destruct (Nat.eq_dec k k1) as [Ek|Nk].
    + exfalso. subst k. destruct Hpath as [Q|Q]; [now apply P3|]. apply Q. now apply P5.
    + apply (w_same _ _ _ _ _ W); [exact Nk|]. destruct Hpath as [Q|Q]; [left; auto|now right].
  - intros k w Hw. apply XK in Hw as [[-> ->]|[_ H]]; [now right|]. now apply (w_occ _ _ _ _ _ W).
  - destruct (w_reach _ _ _ _ _ W) as (k & A & B). exists k. split; [|exact B].
    eapply rt_trans; [apply rt_step; exact Hu|exact A].
  - intros k w Hw. apply XK in Hw as [[-> ->]|[Hk H]].
    + split; [exact Hp0|]. unfold m2; cbn [posrev]. apply put_at_same. rewrite (w_lenr _ _ _ _ _ W). now apply nth_lt in Hp1.
    + destruct (w_rev _ _ _ _ _ W k w H) as [A B]. split; [exact A|]. unfold m2; cbn [posrev]. rewrite put_at_nth.
      destruct (Nat.eqb_spec (Z.to_nat pos) (Z.to_nat w)) as [Q|Q]; [|exact B].
      exfalso. apply (D2 k). replace pos with w by lia. exact H.
  - intros x p Hx. unfold m2 in Hx; cbn [posrev] in Hx. rewrite put_at_nth in Hx. destruct (Nat.eqb_spec (Z.to_nat pos) x).
    + destruct (Nat.ltb (Z.to_nat pos) (length (posrev m'))); [|discriminate]. inversion Hx. unfold len. lia.
    + now apply (w_revr _ _ _ _ _ W) in Hx.
  - exists we. split; [|split; [|split; [|split]]].
    + assert (Q : exists k, endo_of m' k we) by eauto. apply D4 in Q; [exact Q|exact We1|exact We2].
    + intros k Hk. apply XK in Hk as [[_ E]|[Hk H]]; [congruence|]. apply Hk. now apply (Inj k we).
    + destruct D3 as [k Hk]. exists k. apply XK. right. split; [|exact Hk]. intros ->. unfold endo_of in *. congruence.
    + intros w Hw1 Hw2. destruct (Z.eq_dec w pos) as [Ew|Nw].
      * split; intros _; [exists e; apply XK; now left|exists k1; now rewrite Ew].
      * split.
        -- intros Q. apply D4 in Q; [|exact Nw|exact Hw2]. destruct Q as [k Hk]. exists k. apply XK. right. split; [|exact Hk].
           intros ->. apply Hw1. unfold endo_of in *. congruence.
        -- intros [k Hk]. apply XK in Hk as [[_ Q]|[_ H]]; [congruence|]. apply D4; eauto.
    + intros Hpath. assert (Q : nth_error (posxk m') e = nth_error (posxk m) e).
      { apply (w_same _ _ _ _ _ W); [exact Hne|]. destruct Hpath as [Q|Q]; [left; auto|now right]. }
      unfold endo_of in *. congruence.
Qed.

Lemma try_ok f e v (IH : forall path k w, length path = length (objs m) -> endo_of m k w -> (unmarked path < f)%nat ->
     outcome path k w (find_path f vars dbe exo w m path)) :
  endo_of m e v -> ~ occurs m e exo -> forall o', (forall n p, In (n, p) o' -> is_coefficient n = false -> occurs m e p) ->
  forall path, length path = length (objs m) -> (unmarked path <= f)%nat ->
  exists m' path' ok, try_objs (find_path f vars dbe exo) (Z.of_nat e) o' m path = Ok (m', path', ok) /\ length path' = length path /\
    (forall k, on path k -> on path' k) /\
    (forall k, ~ on path k -> on path' k -> clos_trans nat goes e k) /\
    (ok = true -> swapped path path' e v m') /\
    (ok = false -> m' = m /\ (forall k, ~ on path k -> on path' k -> explored path' k) /\
       forall n p k, In (n, p) o' -> is_coefficient n = false -> endo_of m k p -> k <> e -> on path' k).
Proof.
  intros He Hno. induction o' as [|[n p] o' IHo]; intros Hocc path Lp Hf; cbn [try_objs].
  { exists m, path, false. split; [reflexivity|]. split; [reflexivity|]. split; [auto|]. split; [intros; contradiction|].
    split; [discriminate|]. intros _. split; [reflexivity|]. split; [intros; contradiction|intros ? ? ? []]. }
  assert (Hocc' : forall n p, In (n, p) o' -> is_coefficient n = false -> occurs m e p) by (intros; eapply Hocc; [right|]; eauto).
  (* the object is skipped *)
  assert (Skip : (forall k, is_coefficient n = false -> endo_of m k p -> k <> e -> on path k) ->
    exists m' path' ok, try_objs (find_path f vars dbe exo) (Z.of_nat e) o' m path = Ok (m', path', ok) /\ length path' = length path /\
    (forall k, on path k -> on path' k) /\
    (forall k, ~ on path k -> on path' k -> clos_trans nat goes e k) /\
    (ok = true -> swapped path path' e v m') /\
    (ok = false -> m' = m /\ (forall k, ~ on path k -> on path' k -> explored path' k) /\
       forall n0 p0 k, In (n0, p0) ((n, p) :: o') -> is_coefficient n0 = false -> endo_of m k p0 -> k <> e -> on path' k)).
  { intros Hs. destruct (IHo Hocc' path Lp Hf) as (m' & path' & ok & E & A & B & C & D & F).
    exists m', path', ok. split; [exact E|]. split; [exact A|]. split; [exact B|]. split; [exact C|]. split; [exact D|].
    intros Q. destruct (F Q) as (F1 & F2 & F3). split; [exact F1|]. split; [exact F2|].
    intros n0 p0 k [Q1|Q1] Hc Hk Hke; [|now apply (F3 n0 p0)]. inversion Q1; subst. apply B. now apply Hs. }
  destruct (is_coefficient n) eqn:Cn; [apply Skip; intros; discriminate|].
  assert (Op : occurs m e p) by (eapply Hocc; [left; reflexivity|exact Cn]).
  destruct (gep_cases p (l_occ m L e p Op)) as (q & Eq & Hq). rewrite Eq. cbn [rbind].
  destruct Hq as [[Hq0 Hq1]|(k1 & -> & Hk1)].
  { destruct (Z.eqb_spec (Z.of_nat e) q); [lia|]. destruct (Z.ltb_spec q 0); [|lia]. cbn [orb]. apply Skip.
    intros k _ Hk _. now apply Hq1 in Hk. }
  destruct (Z.eqb_spec (Z.of_nat e) (Z.of_nat k1)) as [Ek|Nk].
  { cbn [orb]. apply Skip. intros k _ Hk Hke. exfalso. apply Hke. assert (k = k1) by now apply (endo_inj k k1 p). lia. }
  destruct (Z.ltb_spec (Z.of_nat k1) 0); [lia|]. cbn [orb].
  assert (Hl1 : (k1 < length path)%nat) by (rewrite Lp; now apply (endo_lt k1 p)).
  destruct (nth_ex path k1 Hl1) as [seen Hseen]. rewrite (getz_some path k1 seen Hseen). cbn [rbind].
  destruct seen.
  { apply Skip. intros k _ Hk _. assert (k = k1) by now apply (endo_inj k k1 p). subst k. exact Hseen. }
  rewrite setz_ok by exact Hl1. cbn [rbind].
  set (path1 := put_at path k1 true).
  assert (Lp1 : length path1 = length (objs m)) by (unfold path1; rewrite put_at_length; exact Lp).
  assert (U1 := unmarked_put path k1 Hseen). fold path1 in U1.
  destruct (IH path1 k1 p Lp1 Hk1) as [Q]; [lia|]. destruct Q as (m' & path' & ok & E & A & B & C & D & F).
  rewrite E. cbn [rbind].
  assert (P1 : forall k, on path k -> on path1 k).
  { intros k Hk. unfold on, path1. rewrite put_at_nth. destruct (Nat.eqb_spec k1 k); [|exact Hk].
    destruct (Nat.ltb_spec k1 (length path)); [reflexivity|lia]. }
  assert (P2 : on path1 k1) by (unfold on, path1; apply put_at_same; exact Hl1).
  assert (P3 : ~ on path k1) by (unfold on; congruence).
  assert (P4 : forall k, k <> k1 -> on path1 k -> on path k).
  { intros k Hk. unfold on, path1. rewrite put_at_nth. destruct (Nat.eqb_spec k1 k); [congruence|auto]. }
  assert (Hne : e <> k1) by lia.
  assert (Hu : goes e k1). { split; [|exact Hno]. split; [exact Hne|]. exists p. auto. }
  assert (Reach : forall k, ~ on path k -> on path' k -> clos_trans nat goes e k).
  { intros k Hk Hk'. destruct (Nat.eq_dec k k1) as [->|Nk1]; [now apply t_step|].
    eapply t_trans; [apply t_step; exact Hu|]. apply C; [|exact Hk']. intros Q. apply Hk. now apply P4. }
  destruct ok.
  - destruct (extend path path1 path' e k1 v p m' He Hne Hno Hk1 Op P1 P2 P3 P4 B (D eq_refl)) as (m'' & E2 & W).
    rewrite E2. cbn [rbind]. exists m'', path', true. split; [reflexivity|]. split; [congruence|]. split; [auto|].
    split; [exact Reach|]. split; [auto|discriminate].
  - destruct (F eq_refl) as (Em & Ex1 & Ex2). subst m'.
    assert (U2 : (unmarked path' <= unmarked path1)%nat) by (apply unmarked_mono; auto).
    destruct (IHo Hocc' path') as (m3 & path3 & ok3 & E3 & A3 & B3 & C3 & D3 & F3); [congruence|lia|].
    exists m3, path3, ok3. split; [exact E3|]. split; [congruence|]. split; [auto|]. split; [|split].
    + intros k Hk Hk3. destruct (on_dec path' k) as [Q|Q]; [now apply Reach|now apply C3].
    + intros Q. specialize (D3 Q). destruct D3 as [S1 S2 S3 S4 S5 S6 S7 S8 S9]. constructor; auto.
      * intros k Hk [R|R]; apply S4; auto.
      * destruct S9 as (d & T1 & T2 & T3 & T4 & T5). exists d. split; [exact T1|]. split; [exact T2|]. split; [exact T3|]. split; [exact T4|].
        intros [R|R]; apply T5; auto.
    + intros Q. destruct (F3 Q) as (G1 & G2 & G3). split; [exact G1|].
      assert (Up : forall k, explored path' k -> explored path3 k) by (intros k [R1 R2]; split; auto).
      split.
      * intros k Hk Hk3. destruct (on_dec path' k) as [R|R]; [|now apply G2].
        destruct (Nat.eq_dec k k1) as [->|Nk1]; [now apply Up|]. apply Up. apply Ex2; [|exact R]. intros Q1. apply Hk. now apply P4.
      * intros n0 p0 k [R|R] Hc Hk Hke; [|now apply (G3 n0 p0)]. inversion R; subst n0 p0.
        assert (k = k1) by now apply (endo_inj k k1 p). subst k. auto.
Qed.

Lemma find_ok : forall f path e v, length path = length (objs m) -> endo_of m e v -> (unmarked path < f)%nat ->
  outcome path e v (find_path f vars dbe exo v m path).
Proof.
  induction f as [|f IH]; intros path e v Lp He Hf; [lia|]. constructor. cbn [find_path].
  destruct (Z.ltb_spec exo 0); [lia|]. rewrite (gep_endo m v e L He). cbn [rbind].
  destruct (Names e v He) as (nm & En & o & Ho & Eo). rewrite En. cbn [rbind]. rewrite Eo. cbn [rbind].
  destruct (contains o exo) eqn:C.
  - apply (contains_iff e o Ho) in C. destruct (direct path e v He C) as (m' & E & W). rewrite E. cbn [rbind].
    exists m', path, true. split; [reflexivity|]. split; [reflexivity|]. split; [auto|]. split; [intros; contradiction|].
    split; [auto|discriminate].
  - assert (Hno : ~ occurs m e exo) by (rewrite <- (contains_iff e o Ho); congruence).
    destruct (try_ok f e v IH He Hno o) with (path := path) as (m' & path' & ok & E & A & B & C1 & D & F); [|exact Lp|lia|].
    + intros n p Hin Cn. exists o, n. auto.
    + exists m', path', ok. split; [exact E|]. split; [exact A|]. split; [exact B|]. split; [exact C1|]. split; [exact D|].
      intros Q. destruct (F Q) as (F1 & F2 & F3). split; [exact F1|]. split; [|exact F2]. split; [exact Hno|].
      intros j (Hne & w & Hw & o2 & n & Ho2 & Hin & Cn). assert (o2 = o) by congruence. subst o2. apply (F3 n w); auto.
Qed.

(** The whole exchange. *)
Lemma exo_to_endo_ok e v : endo_of m e v ->
  exists m' ok, exo_to_endo vars dbe m v exo = Ok (m', ok) /\
    (ok = true -> exists path', swapped (repeat false (length (objs m))) path' e v m' /\
        (on path' e -> clos_trans nat goes e e)) /\
    (ok = false -> m' = m /\ forall k, clos_refl_trans nat (uses m) e k -> ~ occurs m k exo).
Proof.
  intros He. unfold exo_to_endo. rewrite (gep_endo m v e L He). cbn [rbind]. destruct (Z.ltb_spec (Z.of_nat e) 0); [lia|].
  destruct (gep_cases exo) as (q & Eq & Hq); [lia|]. rewrite Eq. cbn [rbind].
  destruct Hq as [[Hq0 _]|(k & -> & Hk)]; [|exfalso; exact (NotEndo k Hk)].
  destruct (Z.leb_spec 0 q); [lia|]. set (path := repeat false (length (objs m))).
  assert (Lp : length path = length (objs m)) by apply repeat_length.
  assert (Off : forall k, ~ on path k).
  { intros k Hk. unfold on, path in Hk. apply nth_error_In, repeat_spec in Hk. discriminate. }
  destruct (find_ok (S (length (objs m))) path e v Lp He) as [Q]; [assert (W := unmarked_le path); lia|].
  destruct Q as (m' & path' & ok & E & A & B & C & D & F). rewrite E. cbn [rbind].
  exists m', ok. split; [reflexivity|]. split.
  - intros Q. exists path'. split; [exact (D Q)|]. intros Hon. apply C; [apply Off|exact Hon].
  - intros Q. destruct (F Q) as (F1 & F2 & F3). split; [exact F1|].
    assert (All : forall k, k = e \/ on path' k -> explored path' k).
    { intros k [->|Hk]; [exact F2|]. apply F3; [apply Off|exact Hk]. }
    intros k Hk. apply clos_rt_rt1n in Hk. assert (G : explored path' k); [|apply G].
    assert (Gen : forall a b, clos_refl_trans_1n nat (uses m) a b -> a = e \/ on path' a -> explored path' b).
    { intros a b T. induction T as [|a c b T1 T2 IHT]; intros Ha; [now apply All|]. apply IHT. right. apply All in Ha. now apply Ha. }
    apply (Gen e k Hk). now left.
Qed.
End Search.
