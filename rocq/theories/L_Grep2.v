(** Proofs about the wildcard matcher: defined outcomes, lists of patterns, databases. *)
From Coq Require Import ZArith Ascii String List Bool Lia.
From Verif Require Import M_Base M_Names M_Lex S_Names L_Names M_Kdb M_Grep S_Grep L_Grep.
Import ListNotations.
Open Scope Z_scope.

Lemma rbind_ok {A B} (r : res A) (f : A -> res B) :
  (exists a, r = Ok a) -> (forall a, exists b, f a = Ok b) -> exists b, rbind r f = Ok b.
Proof. intros [a ->] H. apply H. Qed.

Lemma grep_defined e all (Hall : ordinary all) n : forall p, (length p <= n)%nat ->
  no_ampersand (items all p) = true -> forall s nbeg first, exists b, grep_loop e all p s nbeg first = Ok b.
Proof.
  induction n as [|n IHn]; intros p Hp A s nbeg first.
  { destruct p; [|cbn in Hp; lia]. cbn. eauto. }
  destruct p as [|c p]; [cbn; eauto|].
  cbn [length] in Hp. assert (Hp' : (length p <= n)%nat) by lia.
  cbn [grep_loop]. cbn [items] in A.
  destruct (code c =? 92).
  { destruct p as [|d p]; destruct s as [|x s]; eauto.
    destruct (same_char e x d); eauto. cbn in A, Hp. apply IHn; [lia|exact A]. }
  cbn [no_ampersand forallb] in A. apply andb_true_iff in A. destruct A as [A1 A2].
  specialize (IHn p Hp' A2).
  destruct (code c =? 63). { destruct s; eauto. }
  destruct (code c =? 64). { destruct s as [|x s]; eauto. destruct (word_char x); eauto. }
  destruct (code c =? 38); [discriminate|].
  destruct ((code c =? 33) || (code c =? 124)).
  { destruct s as [|x s]; [apply IHn|]. apply rbind_ok.
    - destruct (only_all _ _); eauto. destruct (eqb _ _); eauto.
    - intros []; eauto. destruct (negb nbeg && first); eauto. destruct (only_all all p); eauto. }
  destruct (Ascii.eqb c all).
  { destruct p as [|d p]; [eauto|]. revert first. induction s as [|x s IHs]; intros first; [eauto|].
    apply rbind_ok.
    - destruct (only_all all (d :: p)); eauto.
    - intros []; [eauto|]. apply IHs. }
  destruct s as [|x s]; eauto. destruct (same_char e x c); eauto.
Qed.

Lemma grep_gnl_iff p s e all b : ordinary all -> tame (items all p) = true -> hanging p = false ->
  grep_gnl p s e all = Ok b -> (b = true <-> matches e all p s).
Proof.
  intros O T H. unfold grep_gnl, matches. destruct (only_all all p) eqn:OA.
  - intros E. inversion E; subst b. rewrite (items_all _ _ O OA). split; [intros _; apply lang_many|auto].
  - apply (grep_loop_iff e all O (length p)); auto.
    intros _ _. destruct (items all p) as [|[] ?]; auto.
Qed.
Lemma grep_gnl_defined p s e all : ordinary all -> no_ampersand (items all p) = true ->
  exists b, grep_gnl p s e all = Ok b.
Proof.
  intros O A. unfold grep_gnl. destruct (only_all all p); [eauto|]. eapply grep_defined; eauto.
Qed.

Lemma grep_names_iff p e all names : ordinary all -> tame (items all p) = true -> hanging p = false ->
  forall l, grep_names p e all names = Ok l -> forall n, In n l <-> In n names /\ matches e all p n.
Proof.
  intros O T H. unfold grep_names. destruct (only_all all p) eqn:OA.
  { intros l E. inversion E; subst l. intros n. unfold matches. rewrite (items_all _ _ O OA).
    split; [intros; split; [auto|apply lang_many]|tauto]. }
  induction names as [|m names IH]; intros l E n; cbn in E.
  { inversion E. cbn. tauto. }
  destruct (grep_gnl p m e all) as [b| |] eqn:G; try discriminate. cbn [rbind] in E.
  destruct (grep_each p e all names) as [r| |]; try discriminate. cbn [rbind] in E.
  inversion E; subst l. clear E. specialize (IH r eq_refl n).
  pose proof (grep_gnl_iff _ _ _ _ _ O T H G) as M.
  destruct b; cbn [In]; rewrite IH.
  - split; [intros [<-|[? ?]]; auto; split; auto; now apply M | tauto].
  - split; [tauto|]. intros [[<-|Hn] Hm]; [|auto]. apply M in Hm. discriminate.
Qed.
Lemma grep_names_defined p e all names : ordinary all -> no_ampersand (items all p) = true ->
  exists l, grep_names p e all names = Ok l.
Proof.
  intros O A. unfold grep_names. destruct (only_all all p); [eauto|].
  induction names as [|m names [r IH]]; cbn; [eauto|].
  destruct (grep_gnl_defined p m e all O A) as [b ->]. cbn. rewrite IH. cbn. eauto.
Qed.

(** Splitting. *)
Lemma split_multi_ne seps s : split_multi seps s <> [].
Proof. destruct s as [|c s]; cbn; [discriminate|]. destruct (seps c); [discriminate|]. destruct (split_multi seps s); discriminate. Qed.
Lemma split_multi_hd seps s : exists b, s = hd [] (split_multi seps s) ++ b /\
  Forall (fun c => seps c = false) (hd [] (split_multi seps s)) /\ (b = [] \/ exists c b', b = c :: b' /\ seps c = true).
Proof.
  induction s as [|c s IH]; cbn.
  - exists []. auto.
  - destruct (seps c) eqn:E; cbn.
    + exists (c :: s). repeat split; auto. right. eauto.
    + destruct IH as (b & E1 & E2 & E3). destruct (split_multi seps s) as [|w l]; cbn in *.
      * exists b. subst. repeat split; auto.
      * exists b. rewrite E1 at 1. repeat split; auto.
Qed.
Lemma block_hd seps s q : Forall (fun c => seps c = false) q -> forall b, s = q ++ b ->
  (b = [] \/ exists c b', b = c :: b' /\ seps c = true) -> hd [] (split_multi seps s) = q.
Proof.
  revert s. induction q as [|c q IH]; intros s F b -> B; cbn.
  - destruct B as [->|(c & b' & -> & E)]; [reflexivity|]. cbn. now rewrite E.
  - inversion F; subst. rewrite H1. specialize (IH _ H2 b eq_refl B).
    destruct (split_multi seps (q ++ b)) eqn:S; [now apply split_multi_ne in S|].
    cbn in *. now subst.
Qed.
Lemma in_split seps s : forall q, In q (split_multi seps s) <-> block_of seps s q.
Proof.
  induction s as [|c s IH]; intros q.
  - cbn. split.
    + intros [<-|[]]. exists [], []. cbn. auto.
    + intros (a & b & E & _). symmetry in E. apply app_eq_nil in E. destruct E as [_ E]. apply app_eq_nil in E. left. now destruct E.
  - split.
    + cbn. destruct (seps c) eqn:Ec.
      * intros [<-|H].
        -- exists [], (c :: s). cbn. repeat split; auto. right; eauto.
        -- apply IH in H. destruct H as (a & b & E & F & A & B). exists (c :: a), b. rewrite E.
           repeat split; auto. right. destruct A as [->|(a' & c' & -> & ?)].
           ++ exists [], c. auto.
           ++ exists (c :: a'), c'. auto.
      * pose proof (split_multi_hd seps s) as (b & E1 & E2 & E3).
        destruct (split_multi seps s) as [|w l] eqn:S; [now apply split_multi_ne in S|].
        cbn in E1, E2. intros [<-|H].
        -- exists [], b. cbn. rewrite E1 at 1. repeat split; auto.
        -- (* a block of the rest that is not the first *)
           assert (W : forall s w l q, split_multi seps s = w :: l -> In q l ->
              exists a b c, s = a ++ [c] ++ q ++ b /\ seps c = true /\ Forall (fun c => seps c = false) q /\
                (b = [] \/ exists c b', b = c :: b' /\ seps c = true)).
           { clear. induction s as [|c s IH]; intros w l q E H.
             - cbn in E. inversion E; subst. destruct H.
             - cbn in E. destruct (seps c) eqn:Ec.
               + inversion E; subst. clear E.
                 destruct (split_multi seps s) as [|w' l'] eqn:S; [destruct H|].
                 destruct H as [->|H].
                 * pose proof (split_multi_hd seps s) as (b & E1 & E2 & E3). rewrite S in *. cbn in E1, E2.
                   exists [], b, c. cbn. rewrite <- E1. auto.
                 * destruct (IH _ _ _ eq_refl H) as (a & b & c' & -> & ? & ? & ?).
                   exists (c :: a), b, c'. auto.
               + destruct (split_multi seps s) as [|w' l'] eqn:S; [now apply split_multi_ne in S|].
                 inversion E; subst. destruct (IH _ _ _ eq_refl H) as (a & b & c' & -> & ? & ? & ?).
                 exists (c :: a), b, c'. auto. }
           destruct (W s w l q S H) as (a & b' & c' & -> & ? & ? & ?).
           exists (c :: a ++ [c']), b'. cbn. rewrite <- !app_assoc. cbn. repeat split; auto.
           right. exists (c :: a), c'. auto.
    + intros (a & b & E & F & A & B). destruct a as [|x a].
      * cbn in E. pose proof (block_hd seps (c :: s) q F b E B) as Hd.
        pose proof (split_multi_ne seps (c :: s)). destruct (split_multi seps (c :: s)); [easy|].
        cbn in Hd. now left.
      * cbn in E. inversion E; subst x s. clear E.
        assert (K : In q (split_multi seps (a ++ q ++ b))).
        { destruct A as [A|(a' & c' & A & Hc)]; [discriminate|].
          destruct a' as [|y a'].
          - cbn in A. inversion A; subst. apply IH. exists [], b. auto.
          - cbn in A. inversion A; subst. apply IH. exists (a' ++ [c']), b. repeat split; auto. right. eauto. }
        cbn. destruct (seps c) eqn:Ec; [now right|].
        destruct (split_multi seps (a ++ q ++ b)) as [|w l] eqn:S; [destruct K|].
        destruct K as [->|K]; [|now right].
        (* q is the first block of the rest: then a holds no separator, impossible unless a is empty and c a separator *)
        destruct A as [A|(a' & c' & A & Hc)]; [discriminate|].
        destruct a' as [|y a'].
        -- cbn in A. inversion A; subst. congruence.
        -- cbn in A. inversion A; subst y a.
           (* the rest has a block before q, so the first one ends before the separator; a second copy exists *)
           clear - S Hc F B. right.
           enough (G : forall a' w l, split_multi seps ((a' ++ [c']) ++ q ++ b) = w :: l -> In q l) by exact (G _ _ _ S).
           clear S a' l. induction a' as [|z a' IHa]; intros w l S; cbn in S.
           ++ rewrite Hc in S. inversion S; subst.
              pose proof (block_hd seps (q ++ b) q F b eq_refl B) as Hd.
              pose proof (split_multi_ne seps (q ++ b)). destruct (split_multi seps (q ++ b)); [easy|]. cbn in Hd. now left.
           ++ destruct (seps z).
              ** inversion S; subst. pose proof (split_multi_ne seps ((a' ++ [c']) ++ q ++ b)).
                 destruct (split_multi seps ((a' ++ [c']) ++ q ++ b)) as [|w' l'] eqn:S'; [easy|]. right. eapply IHa; eauto.
              ** pose proof (split_multi_ne seps ((a' ++ [c']) ++ q ++ b)).
                 destruct (split_multi seps ((a' ++ [c']) ++ q ++ b)) as [|w' l'] eqn:S'; [easy|].
                 inversion S; subst. eapply IHa; eauto.
Qed.

Lemma contains_char_iff c s : contains_char c s = true <-> In c s.
Proof.
  unfold contains_char. rewrite existsb_exists. split.
  - intros (x & H & E). apply Ascii.eqb_eq in E. now subst.
  - intros H. exists c. split; [auto|apply Ascii.eqb_refl].
Qed.

Definition star := chr 42.
Lemma star_ordinary : ordinary star.
Proof. unfold ordinary, star. cbn. intuition discriminate. Qed.

(** A name is produced by [expand_each] from a block. *)
Definition produced (names : list str) (q n : str) : Prop :=
  q <> [] /\ (wildcard star q /\ In n names /\ matches false star q n \/ ~ wildcard star q /\ n = q).
Lemma expand_each_ok names ps : Forall (fun p => plain_block (trim p)) ps ->
  exists l, expand_each star names ps = Ok l /\ forall n, In n l <-> exists p, In p ps /\ produced names (trim p) n.
Proof.
  induction 1 as [|p ps (P1 & P2 & P3 & P4) _ (l & E & IH)].
  - exists []. split; [reflexivity|]. intros n. split; [easy|]. intros (p & [] & _).
  - cbn [expand_each].
    assert (Q : exists r, (match trim p with
                | [] => Ok []
                | c :: _ => if negb (code c =? 34) && (contains_char star (trim p) || contains_char (chr 63) (trim p))
                            then grep_names (trim p) false star names else Ok [trim p] end) = Ok r /\
              forall n, In n r <-> produced names (trim p) n).
    { destruct (trim p) as [|c q] eqn:T.
      - exists []. split; [reflexivity|]. intros n. unfold produced. cbn. tauto.
      - set (t := c :: q) in *. assert (C : (code c =? 34) = false).
        { apply Z.eqb_neq. intros X. apply P1. left. congruence. }
        rewrite C. cbn [negb andb].
        destruct (contains_char star t || contains_char (chr 63) t) eqn:W.
        + assert (W' : wildcard star t) by (unfold wildcard; rewrite <- !contains_char_iff; now apply orb_true_iff).
          destruct (grep_names_defined t false star names star_ordinary P3) as [r R]. exists r. split; [exact R|].
          intros n. rewrite (grep_names_iff _ _ _ _ star_ordinary P2 P4 _ R). unfold produced. split.
          * intros [? ?]. split; [discriminate|]. left. auto.
          * intros [_ [[_ H]|[H _]]]; [exact H|now contradict H].
        + assert (W' : ~ wildcard star t).
          { unfold wildcard. rewrite <- !contains_char_iff. apply orb_false_iff in W. destruct W as [-> ->]. now intros []. }
          exists [t]. split; [reflexivity|]. intros n. unfold produced. cbn [In]. split.
          * intros [<-|[]]. split; [discriminate|]. right. auto.
          * intros [_ [[H _]|[_ ->]]]; [now contradict H|auto]. }
    destruct Q as (r & Er & Hr). cbn zeta. rewrite Er. cbn [rbind]. rewrite E. cbn [rbind].
    exists (r ++ l). split; [reflexivity|]. intros n. rewrite in_app_iff, Hr, IH. split.
    + intros [H|(p' & H1 & H2)]; [exists p|exists p']; cbn; auto.
    + intros (p' & [->|H1] & H2); [auto|]. right. eauto.
Qed.

Lemma find_in {V} k (m : smap V) : (exists v, find k m = Some v) <-> In k (keys m).
Proof.
  induction m as [|[k' v'] m IH]; cbn; [split; [intros [? ?]; discriminate|easy]|].
  destruct (str_eqb k k') eqn:E.
  - apply str_eqb_iff in E. subst. split; eauto.
  - rewrite IH. split; [auto|]. intros [->|H]; [|exact H].
    assert (T : str_eqb k k = true) by now apply str_eqb_iff. congruence.
Qed.

Lemma get_key_in ty b q n : ty <> COMMENTS -> n <> [] ->
  (get_key ty b q = n <-> n = key_of ty q /\ In n (keys (objs b))).
Proof.
  intros NC Nn. unfold get_key, contains. assert (C : is_comments ty = false) by (destruct ty; auto; congruence).
  rewrite C. unfold key_of at 1 2. rewrite to_key_idem. fold (key_of ty q).
  destruct (find (key_of ty q) (objs b)) eqn:F.
  - split.
    + intros <-. split; [auto|]. apply find_in. eauto.
    + intros [-> _]. reflexivity.
  - split; [intros <-; congruence|]. intros [-> H]. apply find_in in H. destruct H as [v H]. congruence.
Qed.

Lemma filter_by_pattern_ok ty b p : ty <> COMMENTS ->
  (forall k, In k (keys (objs b)) -> k <> [] /\ key_of ty k = k) ->
  p <> [] -> (forall q q', block_of filter_seps p q -> trimmed q q' -> plain_block q') ->
  match filter_by_pattern ty b p with
  | Ok l => forall n, In n l <-> In n (keys (objs b)) /\ selects (key_of ty) p n filter_seps trimmed
  | Throw => forall n, In n (keys (objs b)) -> ~ selects (key_of ty) p n filter_seps trimmed
  | UB => False
  end.
Proof.
  intros NC K Np PB.
  unfold filter_by_pattern. destruct p as [|c p']; [easy|]. set (p := c :: p') in *.
  destruct (str_eqb p (S2L "*")) eqn:Es.
  { apply str_eqb_iff in Es. intros n. split; [|tauto]. intros H. split; [exact H|].
    exists (S2L "*"), (S2L "*"). repeat split.
    - exists [], []. rewrite Es. repeat split; auto. repeat constructor.
    - change (S2L "*") with (trim (S2L "*")) at 2. apply trim_trimmed.
    - discriminate.
    - left. split; [left; now left|]. unfold matches. cbn. exists n, []. split; [now rewrite app_nil_r|reflexivity]. }
  assert (Fb : Forall (fun q => plain_block (trim q)) (split_multi filter_seps p)).
  { apply Forall_forall. intros q H. apply in_split in H. apply (PB q _ H). apply trim_trimmed. }
  destruct (expand_each_ok (keys (objs b)) _ Fb) as (l & E & L).
  change (expand filter_seps (chr 42) (keys (objs b)) p) with (expand_each star (keys (objs b)) (split_multi filter_seps p)).
  rewrite E. cbn [rbind].
  assert (M : forall n, In n (filter nonempty (map (get_key ty b) l)) <->
                In n (keys (objs b)) /\ selects (key_of ty) p n filter_seps trimmed).
  { intros n. rewrite filter_In, in_map_iff. split.
    - intros [(m & G & Hm) Nn]. assert (Nn' : n <> []) by (destruct n; discriminate).
      apply get_key_in in G; auto. destruct G as [G Hn]. split; [exact Hn|].
      apply L in Hm. destruct Hm as (q & Hq & Nq & [(W & Hk & Mt)|(W & ->)]).
      + exists q, (trim q). rewrite <- in_split. repeat split; auto using trim_trimmed.
        left. split; [exact W|]. destruct (K m Hk) as [_ E']. rewrite G, E'. exact Mt.
      + exists q, (trim q). rewrite <- in_split. repeat split; auto using trim_trimmed.
    - intros [Hn (q & q' & B & T & Nq & S)]. destruct (K n Hn) as [Nn En].
      assert (q' = trim q) by (eapply trimmed_unique; eauto using trim_trimmed). subst q'.
      split; [|destruct n; [now contradict Nn|reflexivity]].
      destruct S as [[W Mt]|[W ->]].
      + exists n. split; [apply get_key_in; auto|]. apply L. exists q. rewrite in_split. split; [exact B|].
        split; [exact Nq|]. left. auto.
      + exists (trim q). split; [apply get_key_in; auto|]. apply L. exists q. rewrite in_split. split; [exact B|].
        split; [exact Nq|]. right. auto. }
  destruct (filter nonempty (map (get_key ty b) l)) as [|x r] eqn:Fl.
  - intros n H1 H2. assert (X : In n []) by (apply M; auto). exact X.
  - exact M.
Qed.
