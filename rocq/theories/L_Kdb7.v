(** Workspaces without subsets behave as finite maps. *)
From Coq Require Import ZArith Ascii String List Bool Lia Sorted.
From Verif Require Import M_Base M_Names M_Lex S_Names L_Names M_Kdb S_Kdb L_Kdb L_Kdb2 L_Kdb3 L_Kdb4 L_Kdb5 L_Kdb6.
Import ListNotations.
Open Scope Z_scope.

Section W.
Context {T : Type}.
Variable ty : otype.
Variable U : str -> Prop.
Notation world := (world T).
Notation op := (op T).
Notation store := (@store T).
Implicit Types w : world.
Implicit Types s : store.
Notation wf := (wf ty U).
Hypothesis EX : exact ty U.

Record Rel s w : Prop := {
  r_wf : wf w;
  r_len : length (dbs w) = count s;
  r_kind : forall d, (d < count s)%nat -> kind (get_db w d) = DB_STANDALONE /\ alive (get_db w d) = true /\ kids (get_db w d) = [];
  r_held : forall d k, held s d k = lookup w d k }.

Lemma rel_here s w d : Rel s w -> live w d = here s d.
Proof.
  intros R. unfold live, here. destruct (Nat.ltb_spec d (count s)) as [H|H].
  - now apply (r_kind _ _ R).
  - rewrite get_out; auto. rewrite (r_len _ _ R). lia.
Qed.
Lemma rel_top s w d : Rel s w -> live w d = true -> top_of w d = Some d /\ family w d = d /\ kids (get_db w d) = [] /\
  alive (get_db w d) = true /\ kind (get_db w d) = DB_STANDALONE.
Proof.
  intros R L. rewrite (rel_here _ _ _ R) in L. apply Nat.ltb_lt in L. destruct (r_kind _ _ R _ L) as (K & A & Kd).
  unfold top_of, family. rewrite K. auto.
Qed.
Lemma rel_touched s w d key e : Rel s w -> live w d = true -> touched ty w d d key e = Nat.eqb e d.
Proof. intros R L. destruct (rel_top _ _ _ R L) as (_ & _ & K & _). unfold touched. rewrite K. cbn. now destruct (Nat.eqb e d). Qed.
Lemma rel_family s w d e : Rel s w -> live w d = true -> in_family w d e = Nat.eqb e d.
Proof. intros R L. destruct (rel_top _ _ _ R L) as (_ & _ & K & _). unfold in_family. rewrite K. cbn. now rewrite orb_false_r. Qed.
Lemma rel_next s w s' w' : Rel s w -> wf w' -> shape w w' -> count s' = count s ->
  (forall d k, held s' d k = lookup w' d k) -> Rel s' w'.
Proof.
  intros R W [S1 S2] C H. constructor; auto.
  - rewrite S1, C. apply (r_len _ _ R).
  - intros d. rewrite C. intros L. destruct (S2 d) as (-> & -> & _ & ->). now apply (r_kind _ _ R).
Qed.
Lemma dbs_same_lookup w w' l : wf w -> dbs w' = dbs w -> heap w' = heap w ++ l -> forall d k, lookup w' d k = lookup w d k.
Proof.
  intros W D H d k. unfold lookup. assert (G : get_db w' d = get_db w d) by (unfold get_db; now rewrite D).
  rewrite G. destruct (find k (objs (get_db w d))) as [p|] eqn:F; auto. rewrite H. apply nth_error_app1.
  apply find_In in F. eapply wf_ptr; eauto.
Qed.
Lemma dbs_same_rel s w w' l : Rel s w -> wf w' -> dbs w' = dbs w -> heap w' = heap w ++ l -> Rel s w'.
Proof.
  intros R W' D H. eapply rel_next; eauto.
  - split; [congruence|]. intros e. assert (G : get_db w' e = get_db w e) by (unfold get_db; now rewrite D). rewrite G. auto.
  - intros d k. rewrite (dbs_same_lookup w w' l); auto. apply (r_held _ _ R). apply (r_wf _ _ R).
Qed.
Lemma bind_lookup s w w' d key v : Rel s w ->
  (forall e k, lookup w' e k = if Nat.eqb e d && str_eqb k key then v else lookup w e k) ->
  forall e k, bind_key (held s) d key v e k = lookup w' e k.
Proof. intros R H e k. unfold bind_key. now rewrite H, (r_held _ _ R). Qed.

Lemma valid_check k : valid ty k = true <-> check_name k ty = Ok tt.
Proof. unfold valid. destruct (check_name k ty) as [[]| |]; split; auto; discriminate. Qed.

Lemma sim_ptr s w d name p : Rel s w -> live w d = true -> U (key_of ty name) ->
  Rel (if valid ty (key_of ty name) && is_some (nth_error (heap w) p)
       then mkS (count s) (bind_key (held s) d (key_of ty name) (nth_error (heap w) p)) else s)
      (fst (set_obj_ptr ty w d name p)).
Proof.
  intros R L Uk. pose proof (r_wf _ _ R) as W. destruct (rel_top _ _ _ R L) as (Ht & Hf & Hk & Ha & Hd).
  destruct (set_obj_ptr_cases ty U w d name p W Ha ltac:(auto))
    as [(w' & E & D & (l & Hl) & W' & C)|[(t & E & Ht' & Ck & G)|(t & v & w' & E & Ht' & Ck & Hv & Ed & W')]];
    rewrite E; cbn [fst].
  - assert (valid ty (key_of ty name) && is_some (nth_error (heap w) p) = false) as ->.
    { destruct C as [C|[C|C]]; [| rewrite C; apply andb_false_r | congruence].
      destruct (valid ty (key_of ty name)) eqn:V; auto. apply valid_check in V. contradiction. }
    eapply dbs_same_rel; eauto.
  - assert (t = d) by congruence. subst t. apply valid_check in Ck. rewrite Ck.
    rewrite get_obj_ptr_exact with (U := U) in G by (auto; now rewrite key_idem). rewrite key_idem in G.
    destruct (find (key_of ty name) (objs (get_db w d))) as [q|] eqn:F; [|discriminate]. inversion G; subst q.
    destruct (ptr_valid ty U w d _ p W F) as [v Hv]. rewrite Hv. cbn [is_some andb].
    eapply rel_next; eauto. apply shape_refl. cbn [held]. apply (bind_lookup s w w); auto.
    intros e k. destruct (Nat.eqb e d && str_eqb k (key_of ty name)) eqn:B; auto. apply andb_true_iff in B.
    destruct B as [B1 B2]. apply Nat.eqb_eq in B1. apply str_eqb_iff in B2. subst e k. unfold lookup. now rewrite F.
  - assert (t = d) by congruence. subst t. apply valid_check in Ck. rewrite Ck, Hv. cbn [is_some andb].
    eapply rel_next; eauto. { destruct Ed as [_ Es _ _]. exact Es. }
    cbn [held]. apply (bind_lookup s w w'); auto. intros e k.
    rewrite (lookup_setting ty U w v w' d d (key_of ty name) W Ed). now rewrite (rel_touched s).
Qed.
Lemma sim_grow s w v : Rel s w -> Rel s (grow w v).
Proof. intros R. eapply (dbs_same_rel s w (grow w v) [v]); eauto. apply wf_grow. apply (r_wf _ _ R). Qed.
Lemma sim_set s w d name v : Rel s w -> live w d = true -> U (key_of ty name) ->
  Rel (if valid ty (key_of ty name) then mkS (count s) (bind_key (held s) d (key_of ty name) (Some v)) else s)
      (fst (set ty w d name v)).
Proof.
  intros R L Uk. unfold set. cbn [alloc].
  pose proof (sim_ptr s (grow w v) d name (length (heap w)) (sim_grow _ _ v R) L Uk) as H.
  cbn [grow heap] in H. rewrite nth_error_app2, Nat.sub_diag in H by lia. cbn [nth_error is_some] in H.
  rewrite andb_true_r in H. exact H.
Qed.
Lemma cont s w d n : Rel s w -> U (key_of ty n) -> contains ty (get_db w d) n = is_some (held s d (key_of ty n)).
Proof.
  intros R Uk. pose proof (r_wf _ _ R) as W. rewrite (contains_exact ty U) by auto. rewrite (r_held _ _ R). symmetry.
  eapply is_some_lookup; eauto.
Qed.
Lemma cont_key s w d n : Rel s w -> U (key_of ty n) ->
  contains ty (get_db w d) (key_of ty n) = is_some (held s d (key_of ty n)).
Proof. intros R Uk. rewrite (cont s) by (auto; now rewrite key_idem). now rewrite key_idem. Qed.
Lemma sim_add s w d name v : Rel s w -> live w d = true -> U (key_of ty name) ->
  Rel (if valid ty (key_of ty name) && negb (is_some (held s d (key_of ty name)))
       then mkS (count s) (bind_key (held s) d (key_of ty name) (Some v)) else s) (fst (add ty w d name v)).
Proof.
  intros R L Uk. pose proof (r_wf _ _ R) as W. destruct (rel_top _ _ _ R L) as (Ht & Hf & Hk & Ha & Hd).
  unfold add. destruct (check_key ty name) as [Ck|Ck]; rewrite Ck; unfold valid; rewrite Ck; cbn [andb]; auto.
  rewrite (cont_key s) by auto. destruct (is_some (held s d (key_of ty name))) eqn:Is; auto.
  unfold parent_contains. rewrite Hd. cbn [is_subset andb alloc negb]. fold (grow w v).
  destruct (set_no_check_lookup ty U w d (key_of ty name) v d) as (w' & E & W' & Wi & Lk); auto using key_idem.
  rewrite E. cbn [fst]. eapply rel_next; eauto. apply Wi. cbn [held]. apply (bind_lookup s w w'); auto.
  intros e k. rewrite Lk. now rewrite (rel_touched s).
Qed.
Lemma held_valid s w d k v : Rel s w -> held s d k = Some v -> valid ty k = true /\ key_of ty k = k /\ U k.
Proof.
  intros R H. pose proof (r_wf _ _ R) as W. rewrite (r_held _ _ R) in H. apply (lookup_find ty U) in H; auto.
  destruct H as (p & F & _). apply find_In in F. apply (wf_valid _ _ _ W) in F. destruct F as (A & B & C).
  apply valid_check in A. auto.
Qed.
Lemma sim_update s w d name v : Rel s w -> live w d = true -> U (key_of ty name) ->
  Rel (if is_some (held s d (key_of ty name))
       then mkS (count s) (bind_key (held s) d (key_of ty name) (Some v)) else s) (fst (update ty w d name v)).
Proof.
  intros R L Uk. unfold update. rewrite (cont_key s) by auto.
  destruct (held s d (key_of ty name)) as [x|] eqn:H; cbn [is_some]; auto.
  destruct (held_valid _ _ _ _ _ R H) as (V & _ & _).
  pose proof (sim_set s w d (key_of ty name) v R L ltac:(now rewrite key_idem)) as S. rewrite key_idem, V in S. exact S.
Qed.
Lemma sim_remove s w d name : Rel s w -> live w d = true -> U (key_of ty name) ->
  Rel (mkS (count s) (bind_key (held s) d (key_of ty name) None)) (fst (remove ty w d name)) /\
  snd (remove ty w d name) <> Exc.
Proof.
  intros R L Uk. pose proof (r_wf _ _ R) as W. destruct (rel_top _ _ _ R L) as (Ht & Hf & Hk & Ha & Hd).
  destruct (remove_lookup ty U EX w d name d W Ha Ht Uk) as (w' & b & E & W' & Wi & Hb & Lk). rewrite E. cbn [fst snd].
  split; [|discriminate]. eapply rel_next; eauto. apply Wi. cbn [held].
  intros e k. rewrite Lk, (rel_family s) by auto. unfold bind_key. rewrite (r_held _ _ R).
  destruct b; cbn [andb].
  - destruct (_ && _); auto.
  - rewrite andb_diag in Hb. destruct (Nat.eqb e d && str_eqb k (key_of ty name)) eqn:B; auto.
    apply andb_true_iff in B. destruct B as [B1 B2]. apply Nat.eqb_eq in B1. apply str_eqb_iff in B2. subst e k.
    destruct (lookup w d (key_of ty name)); auto. discriminate.
Qed.
Lemma sim_rename s w d a b ow : Rel s w -> live w d = true -> U (key_of ty a) -> U (key_of ty b) ->
  Rel (if may_rename ty && valid ty (key_of ty b) && is_some (held s d (key_of ty a)) && (ow || negb (is_some (held s d (key_of ty b))))
       then mkS (count s) (bind_key (bind_key (held s) d (key_of ty a) None) d (key_of ty b) (held s d (key_of ty a))) else s)
      (fst (rename ty w d a b ow)).
Proof.
  intros R L Ua Ub. pose proof (r_wf _ _ R) as W. destruct (rel_top _ _ _ R L) as (Ht & Hf & Hk & Ha & Hd).
  destruct (rename_lookup ty U EX w d a b ow W Ha Ua Ub) as [(r & E & _ & C)|(t & w' & E & W' & Wi & Ht' & X1 & X2 & X3 & X4 & X5 & Lk)];
    rewrite E; cbn [fst]; rewrite !(r_held _ _ R).
  - specialize (C d Ht eq_refl).
    match goal with |- Rel (if ?c then _ else _) _ => assert (c = false) as -> end; auto.
    destruct C as [->|[->|[->|[-> C]]]]; cbn [is_some]; rewrite ?andb_false_r; cbn [andb]; auto.
    destruct (lookup w d (key_of ty b)); [|congruence]. cbn. now rewrite andb_false_r.
  - assert (t = d) by congruence. subst t. rewrite X3, X4.
    assert (is_some (lookup w d (key_of ty a)) = true) as -> by (destruct (lookup w d (key_of ty a)); auto; congruence).
    assert (ow || negb (is_some (lookup w d (key_of ty b))) = true) as ->.
    { destruct X5 as [->| ->]; auto. cbn. apply orb_true_r. }
    cbn [andb]. eapply rel_next; eauto. apply Wi. cbn [held]. intros e k. rewrite Lk, Hk. cbn [in_list existsb].
    cbn [andb]. rewrite orb_false_r. unfold bind_key. rewrite (r_held _ _ R).
    destruct (Nat.eqb e d) eqn:Ee; cbn [andb]; auto.
Qed.
Lemma sim_clear s w d : Rel s w -> live w d = true ->
  Rel (mkS (count s) (fun x k => if Nat.eqb x d then None else held s x k)) (clear w d).
Proof.
  intros R L. pose proof (r_wf _ _ R) as W. destruct (rel_top _ _ _ R L) as (Ht & Hf & Hk & Ha & Hd).
  destruct (clear_ok ty U w d W Ha) as [W' _].
  destruct (clear_spec ty U w d W Ha) as (Hh & Hl & [[K _]|[_ H]]); [congruence|].
  constructor; auto.
  - rewrite Hl. apply (r_len _ _ R).
  - cbn [count]. intros e Le. destruct (H e) as (-> & -> & _ & _ & H5). rewrite Hk in *. cbn [in_list existsb].
    destruct (r_kind _ _ R _ Le) as (A & B & C). split; [auto|]. split; [auto|]. rewrite H5. destruct (Nat.eqb e d); auto.
  - cbn [held]. intros e k. unfold lookup. destruct (H e) as (_ & _ & _ & -> & _). rewrite Hh, (rel_family s) by auto.
    destruct (Nat.eqb e d); auto. apply (r_held _ _ R).
Qed.
Lemma sim_merge s w d e ow c : Rel s w -> live w d = true -> live w e = true -> d <> e ->
  Rel (mkS (count s) (fun x k => if Nat.eqb x d then
                       (if is_some (held s e k) && (ow || negb (is_some (held s d k))) then held s e k else held s d k)
                     else if Nat.eqb x e && c then None else held s x k)) (fst (merge ty w d e ow c)).
Proof.
  intros R L Le Nde. pose proof (r_wf _ _ R) as W. destruct (rel_top _ _ _ R L) as (Ht & Hf & Hk & Ha & Hd).
  destruct (rel_top _ _ _ R Le) as (Ht' & Hf' & Hk' & Ha' & Hd').
  destruct (merge_lookup ty U EX w d e ow c d W Ha Ha' Ht ltac:(congruence)) as (w' & E & W' & Wi & Lk).
  rewrite E. cbn [fst].
  set (h := fun x k => if Nat.eqb x d then
                       (if is_some (held s e k) && (ow || negb (is_some (held s d k))) then held s e k else held s d k)
                     else held s x k).
  assert (R1 : Rel (mkS (count s) h) w').
  { eapply rel_next; eauto. apply Wi. cbn [held]. intros x k. unfold h. destruct (Nat.eqb x d) eqn:Ex.
    - apply Nat.eqb_eq in Ex. subst x. rewrite Lk, !(r_held _ _ R). auto.
    - rewrite (r_held _ _ R). symmetry. destruct (Nat.lt_ge_cases x (count s)) as [Hx|Hx].
      + eapply (within_lookup ty U); eauto. rewrite Hf.
        destruct (r_kind _ _ R _ Hx) as (Kx & _). unfold family. rewrite Kx. cbn. now apply Nat.eqb_neq.
      + destruct Wi as (_ & [Sl _] & _). unfold lookup. rewrite !get_out; auto. rewrite (r_len _ _ R). lia. rewrite Sl, (r_len _ _ R). lia. }
  assert (L1 : live w' e = true). { rewrite (rel_here _ _ _ R1). rewrite (rel_here _ _ _ R) in Le. exact Le. }
  assert (Ext : forall s1 s2 w, Rel s1 w -> count s1 = count s2 -> (forall x k, held s1 x k = held s2 x k) -> Rel s2 w).
  { intros s1 s2 w0 Q C H. constructor.
    - apply (r_wf _ _ Q).
    - rewrite <- C. apply (r_len _ _ Q).
    - intros x Hx. apply (r_kind _ _ Q). now rewrite C.
    - intros. rewrite <- H. apply (r_held _ _ Q). }
  destruct (c && negb (is_nil (objs (get_db w e)))) eqn:B.
  - apply andb_true_iff in B. destruct B as [-> _].
    eapply Ext; [exact (sim_clear _ _ _ R1 L1)|reflexivity|]. cbn [held]. intros x k. unfold h.
    destruct (Nat.eqb x e) eqn:Exe; cbn [andb]; auto. apply Nat.eqb_eq in Exe. subst x.
    destruct (Nat.eqb e d) eqn:Eed; auto. apply Nat.eqb_eq in Eed. congruence.
  - eapply Ext; [exact R1|reflexivity|]. cbn [held]. intros x k. unfold h. destruct (Nat.eqb x d); auto.
    destruct (Nat.eqb x e) eqn:Exe; cbn [andb]; auto. destruct c; auto. cbn [andb] in B. apply negb_false_iff in B.
    apply Nat.eqb_eq in Exe. subst x. rewrite (r_held _ _ R). unfold lookup.
    destruct (objs (get_db w e)); [reflexivity|discriminate].
Qed.
Lemma rel_ext s1 s2 w : Rel s1 w -> count s1 = count s2 -> (forall x k, held s1 x k = held s2 x k) -> Rel s2 w.
Proof.
  intros Q C H. constructor.
  - apply (r_wf _ _ Q).
  - rewrite <- C. apply (r_len _ _ Q).
  - intros x Hx. apply (r_kind _ _ Q). now rewrite C.
  - intros. rewrite <- H. apply (r_held _ _ Q).
Qed.
Lemma sim_copy s w d e a b : Rel s w -> live w d = true -> live w e = true -> U (key_of ty a) -> U (key_of ty b) ->
  Rel (if valid ty (key_of ty b) && is_some (held s e (key_of ty a))
       then mkS (count s) (bind_key (held s) d (key_of ty b) (held s e (key_of ty a))) else s)
      (fst (copy_obj_from ty w d e (key_of ty a) (key_of ty b))).
Proof.
  intros R L Le Ua Ub. pose proof (r_wf _ _ R) as W. unfold copy_obj_from.
  rewrite (get_obj_ptr_exact ty U) by (auto; now rewrite key_idem). rewrite key_idem.
  rewrite (r_held _ _ R). unfold lookup.
  destruct (find (key_of ty a) (objs (get_db w e))) as [p|] eqn:F.
  - pose proof (sim_ptr s w d (key_of ty b) p R L ltac:(now rewrite key_idem)) as H. rewrite key_idem in H. exact H.
  - cbn [is_some]. rewrite andb_false_r. exact R.
Qed.
Lemma sim_duplicate s w d e a b : Rel s w -> live w d = true -> live w e = true -> U (key_of ty a) -> U (key_of ty b) ->
  (d <> e \/ key_of ty a <> key_of ty b \/ a = b) ->
  Rel (if valid ty (key_of ty b) && is_some (held s e (key_of ty a))
       then mkS (count s) (bind_key (held s) d (key_of ty b) (held s e (key_of ty a))) else s)
      (fst (duplicate ty w d e a b)).
Proof.
  intros R L Le Ua Ub P. pose proof (r_wf _ _ R) as W. unfold duplicate.
  destruct (Nat.eqb d e && str_eqb a b) eqn:Same; cbn [fst].
  { apply andb_true_iff in Same. destruct Same as [S1 S2]. apply Nat.eqb_eq in S1. apply str_eqb_iff in S2. subst e b.
    destruct (_ && _); auto. eapply rel_ext; eauto. cbn [held]. intros x k. unfold bind_key.
    destruct (Nat.eqb x d && str_eqb k (key_of ty a)) eqn:B; auto. apply andb_true_iff in B. destruct B as [B1 B2].
    apply Nat.eqb_eq in B1. apply str_eqb_iff in B2. now subst. }
  rewrite (cont s w e a) by auto. destruct (held s e (key_of ty a)) as [v|] eqn:Hv; cbn [is_some negb].
  2: { now rewrite andb_false_r. }
  rewrite (cont s w d b) by auto.
  destruct (held s d (key_of ty b)) as [v'|] eqn:Hd; cbn [is_some].
  - destruct (sim_remove s w d (key_of ty b) R L ltac:(now rewrite key_idem)) as [R1 N].
    destruct (remove ty w d (key_of ty b)) as [w1 [r|]]; [|cbn in N; congruence]. cbn [fst] in R1. rewrite key_idem in R1.
    assert (Hx : bind_key (held s) d (key_of ty b) None e (key_of ty a) = Some v).
    { unfold bind_key. destruct (Nat.eqb e d && str_eqb (key_of ty a) (key_of ty b)) eqn:B; auto.
      apply andb_true_iff in B. destruct B as [B1 B2]. apply Nat.eqb_eq in B1. apply str_eqb_iff in B2.
      destruct P as [P|[P|P]]; try congruence. subst. rewrite Nat.eqb_refl, str_eqb_refl in Same. discriminate. }
    rewrite (cont _ w1 e a R1) by auto. cbn [held]. rewrite Hx. cbn [is_some negb].
    assert (L1 : live w1 d = true) by (rewrite (rel_here _ _ _ R1); rewrite (rel_here _ _ _ R) in L; exact L).
    assert (L2 : live w1 e = true) by (rewrite (rel_here _ _ _ R1); rewrite (rel_here _ _ _ R) in Le; exact Le).
    pose proof (sim_copy _ w1 d e a b R1 L1 L2 Ua Ub) as H. cbn [held count] in H. rewrite Hx in H. cbn [is_some] in H.
    destruct (held_valid _ _ _ _ _ R Hd) as (V & _). rewrite V in *. cbn [andb] in *.
    eapply rel_ext; [exact H|reflexivity|]. cbn [held]. intros x k. unfold bind_key.
    destruct (Nat.eqb x d && str_eqb k (key_of ty b)); auto.
  - rewrite (cont s w e a) by auto. rewrite Hv. cbn [is_some negb].
    pose proof (sim_copy s w d e a b R L Le Ua Ub) as H. rewrite Hv in H. cbn [is_some] in H. exact H.
Qed.

Lemma sim_step s w o : Rel s w -> plain ty o -> (forall n, In n (names_of o) -> U (key_of ty n)) ->
  Rel (spec_step ty s o) (fst (step ty w o)).
Proof.
  intros R P Un. destruct o as [|d n v|d n p|d n v|d n v|d n|d a b ow|d e ow c|d e a b|d sel c|d|d|p v];
    cbn [step spec_step plain names_of] in *; try contradiction;
    try (rewrite <- (rel_here s w) by auto); try (destruct (live w d) eqn:L; cbn [andb fst]; [|now auto]).
  - cbn [fst]. pose proof (r_wf _ _ R) as W. destruct (create_ok ty U w DB_STANDALONE 0 W ltac:(discriminate)) as [W' H].
    constructor; auto.
    + cbn [create fst dbs count]. rewrite app_length. cbn. rewrite (r_len _ _ R). lia.
    + cbn [count]. intros d Ld. rewrite get_create. destruct (Nat.eqb d (length (dbs w))) eqn:E; [cbn; auto|].
      apply (r_kind _ _ R). apply Nat.eqb_neq in E. rewrite (r_len _ _ R) in E. lia.
    + cbn [held]. intros d k. rewrite (r_held _ _ R). unfold lookup. rewrite get_create.
      destruct (Nat.eqb d (length (dbs w))) eqn:E; auto. apply Nat.eqb_eq in E. subst d. rewrite get_out by lia. reflexivity.
  - apply sim_set; auto. apply Un. now left.
  - apply sim_add; auto. apply Un. now left.
  - apply sim_update; auto. apply Un. now left.
  - apply sim_remove; auto. apply Un. now left.
  - apply sim_rename; auto; apply Un; cbn; auto.
  - rewrite <- (rel_here s w) by auto. destruct (live w e) eqn:Le; cbn [andb fst]; auto. now apply sim_merge.
  - rewrite <- (rel_here s w) by auto. destruct (live w e) eqn:Le; cbn [andb fst]; auto.
    apply sim_duplicate; auto; apply Un; cbn; auto.
  - now apply sim_clear.
Qed.
Lemma sim_run ops : forall s w, Rel s w -> Forall (plain ty) ops -> (forall n, In n (mentions ops) -> U (key_of ty n)) ->
  Rel (fold_left (spec_step ty) ops s) (run ty ops w).
Proof.
  induction ops as [|o ops IH]; intros s w R P Un; auto. inversion P; subst. rewrite run_cons. cbn [fold_left].
  apply IH; auto.
  - apply sim_step; auto. intros n Hn. apply Un. unfold mentions. cbn. apply in_or_app. now left.
  - intros n Hn. apply Un. unfold mentions. cbn. apply in_or_app. now right.
Qed.
Lemma rel_empty : Rel (mkS 0 (fun _ _ => None)) (@empty_world T).
Proof.
  constructor.
  - apply wf_empty.
  - reflexivity.
  - cbn. intros d H. lia.
  - intros d k. unfold lookup. rewrite get_out by (cbn; lia). reflexivity.
Qed.
End W.

Section Final.
Context {T : Type}.
Variable ty : otype.
(** The keys of some names. *)
Definition keys_of_names (names : list str) : str -> Prop := fun k => exists n, In n names /\ k = key_of ty n.
Lemma exact_names names : steady_case ty names -> exact ty (keys_of_names names).
Proof.
  intros St Ty a b (n & Hn & ->) (m & Hm & ->) E. specialize (St Ty n m Hn Hm).
  assert (K : forall x, key_of ty x = trim x) by (intros x; unfold key_of; rewrite Ty; reflexivity).
  rewrite !K in *. apply St. apply (map_same _ lower_same). exact E.
Qed.
Lemma names_in_all names (ops : list (op T)) : incl (mentions ops) names -> forall o, In o ops -> names_in ty (keys_of_names names) o.
Proof.
  intros I o Ho n Hn. exists n. split; auto. apply I. unfold mentions. apply in_flat_map. eauto.
Qed.
Lemma maps_refine (ops : list (op T)) d name : Forall (plain ty) ops -> steady_case ty (name :: mentions ops) ->
  get ty (run ty ops empty_world) d name =
  match held (spec_run ty ops) d (key_of ty name) with Some v => Ok v | None => Throw end.
Proof.
  intros P St. pose proof (exact_names _ St) as EX.
  pose proof (sim_run ty _ EX ops _ _ (rel_empty ty (keys_of_names (name :: mentions ops))) P) as R.
  assert (R' := R ltac:(intros n Hn; exists n; split; [now right|reflexivity])). clear R.
  rewrite (get_exact ty (keys_of_names (name :: mentions ops)) EX).
  - unfold spec_run. now rewrite <- (r_held _ _ _ _ R').
  - apply (r_wf _ _ _ _ R').
  - exists name. split; [now left|reflexivity].
Qed.
End Final.
