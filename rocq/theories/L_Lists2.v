(** Lemmas: the operations on lists. *)
From Coq Require Import ZArith Ascii String List Bool Lia ZifyBool Sorting.Permutation Sorting.Sorted.
From Verif Require Import M_Base M_Time M_Names M_Lex M_Kdb M_Report S_Report S_Names L_Names L_Kdb L_Time L_Report2 L_Report4 L_Report5 M_Lists S_Lists L_Lists.
Import ListNotations.
Open Scope Z_scope.

Lemma within_In l w : within l w = true <-> In w l.
Proof. unfold within. rewrite existsb_exists. split; [intros (x & H & E); apply str_eqb_iff in E as ->; exact H|intros H; exists w; split; [exact H|apply str_eqb_refl]]. Qed.
Lemma has_within l w : has l w = within l w.
Proof. reflexivity. Qed.
Lemma filter_ext_all {A} (f g : A -> bool) l : (forall x, f x = g x) -> filter f l = filter g l.
Proof. intros H. induction l as [|x l IH]; [reflexivity|]. cbn. rewrite H, IH. reflexivity. Qed.
Lemma filter_filter {A} (f g : A -> bool) l : filter f (filter g l) = filter (fun x => g x && f x) l.
Proof. induction l as [|x l IH]; [reflexivity|]. cbn. destruct (g x); cbn; rewrite IH; reflexivity. Qed.
Lemma filter_none {A} (f : A -> bool) l : (forall x, In x l -> f x = true) -> filter f l = l.
Proof. induction l as [|x l IH]; intros H; [reflexivity|]. cbn. rewrite H by (left; reflexivity). f_equal. apply IH. intros y Hy. apply H. right. exact Hy. Qed.
Lemma firsts_In l w : In w (firsts l) <-> In w l.
Proof.
  induction l as [|x l IH]; [reflexivity|]. cbn [firsts In]. rewrite filter_In, IH. split; [tauto|]. intros [->|H]; [tauto|].
  destruct (str_eqb w x) eqn:E; [apply str_eqb_iff in E as ->; tauto|]. right. split; [exact H|reflexivity].
Qed.
Lemma firsts_NoDup l : NoDup (firsts l).
Proof.
  induction l as [|x l IH]; [constructor|]. cbn [firsts]. constructor.
  - rewrite filter_In, str_eqb_refl. intros [_ H]. discriminate.
  - apply NoDup_filter, IH.
Qed.
Lemma add_all l : forall acc, fold_left add_tbl l acc = acc ++ filter (fun w => negb (within acc w)) (firsts l).
Proof.
  induction l as [|w l IH]; intros acc; [symmetry; apply app_nil_r|]. cbn [fold_left firsts filter]. rewrite IH. unfold add_tbl. rewrite has_within.
  destruct (within acc w) eqn:E; cbn [negb].
  - f_equal. rewrite filter_filter. apply filter_ext_all. intros x. destruct (str_eqb x w) eqn:Ex; [apply str_eqb_iff in Ex as ->; rewrite E; reflexivity|reflexivity].
  - rewrite <- app_assoc. cbn [app]. do 2 f_equal. rewrite filter_filter. apply filter_ext_all. intros x. unfold within. rewrite existsb_app. cbn [existsb].
    rewrite orb_false_r. rewrite negb_orb. apply andb_comm.
Qed.
Lemma firsts_app a b : firsts (a ++ b) = firsts a ++ filter (fun w => negb (within (firsts a) w)) (firsts b).
Proof.
  pose proof (add_all (a ++ b) []) as H. rewrite fold_left_app, (add_all a []), add_all in H. cbn [app] in H.
  rewrite !(filter_none (fun w => negb (within [] w))) in H by reflexivity. symmetry. exact H.
Qed.
Lemma union_firsts a b : SCR_union (Some a) (Some b) = firsts (a ++ b).
Proof. unfold SCR_union. rewrite !add_all, firsts_app. cbn [app]. rewrite !(filter_none (fun w => negb (within [] w))) by reflexivity. reflexivity. Qed.
Lemma inter_firsts a b : SCR_inter (Some a) (Some b) = firsts (filter (within b) a).
Proof. unfold SCR_inter. rewrite add_all. cbn [app]. rewrite (filter_none (fun w => negb (within [] w))) by reflexivity. reflexivity. Qed.

Lemma insert_perm w l : Permutation (w :: l) (insert w l).
Proof. induction l as [|x l IH]; [apply Permutation_refl|]. cbn [insert]. destruct (str_ltb x w); [|apply Permutation_refl]. eapply Permutation_trans; [apply perm_swap|]. apply perm_skip, IH. Qed.
Lemma sort_perm l : Permutation l (sort l).
Proof. induction l as [|w l IH]; [apply Permutation_refl|]. cbn [sort fold_right]. eapply Permutation_trans; [apply perm_skip, IH|apply insert_perm]. Qed.
Lemma not_after_trans a b c : not_after a b -> not_after b c -> not_after a c.
Proof.
  unfold not_after. intros A B. destruct (str_ltb c a) eqn:E; [|reflexivity]. exfalso.
  destruct (str_eqb b a) eqn:Eb; [apply str_eqb_iff in Eb as ->; congruence|].
  pose proof (str_lt_total b a A Eb) as L1. pose proof (str_lt_trans c a b E L1) as L2. unfold str_lt in L2. congruence.
Qed.
Lemma insert_sorted w l : StronglySorted not_after l -> StronglySorted not_after (insert w l).
Proof.
  induction l as [|x l IH]; intros H; [repeat constructor|]. cbn [insert]. inversion H as [|? ? S F]; subst. destruct (str_ltb x w) eqn:E.
  - constructor; [apply IH, S|]. rewrite Forall_forall in *. intros y Hy. apply (Permutation_in y (Permutation_sym (insert_perm w l))) in Hy. destruct Hy as [<-|Hy]; [|apply F, Hy].
    unfold not_after. destruct (str_ltb w x) eqn:E2; [|reflexivity]. exfalso. exact (str_lt_irrefl x (str_lt_trans _ _ _ E E2)).
  - constructor; [exact H|]. constructor; [exact E|]. rewrite Forall_forall in *. intros y Hy. eapply not_after_trans; [exact E|apply F, Hy].
Qed.
Lemma sort_sorted l : StronglySorted not_after (sort l).
Proof. induction l as [|w l IH]; [constructor|]. cbn [sort fold_right]. apply insert_sorted, IH. Qed.

Lemma flat_all ws n l r : flat ws n l r -> forallb element r = true.
Proof. induction 1 as [n|n w l r E F IH|n x t a l r W L Q F IH G IH']; [reflexivity|cbn [forallb]; rewrite E; exact IH|]. rewrite forallb_app, IH, IH'. reflexivity. Qed.
Lemma holds_all ws name l : list_holds ws name l -> forallb element l = true.
Proof. intros (t & _ & _ & F). exact (flat_all _ _ _ _ F). Qed.
Lemma holds_init files ws name l : list_holds ws name l -> exists t, list_of ws name = Some t /\ a_init files ws t = Some l.
Proof. intros (t & L & S). exists t. split; [exact L|]. apply stands_init, S. Qed.
Lemma incl_elements a b : (forall w, In w b -> In w a) -> forallb element a = true -> forallb element b = true.
Proof. intros I H. rewrite forallb_forall in *. intros w Hw. apply H, I, Hw. Qed.

(** A list made of one text. *)
Lemma whole_holds ws name l : list_name name -> forallb element l = true ->
  list_holds (M_Kdb.put (to_upper name) (mtov l [chr 59]) ws) name l /\
  (forall other, ~ same_name other name -> list_of (M_Kdb.put (to_upper name) (mtov l [chr 59]) ws) other = list_of ws other).
Proof.
  intros N E. pose proof (mtov_items l E) as [I Q]. split.
  - eapply name_stands; [exact N|rewrite list_of_name by exact N; apply find_put_eq|exact Q|rewrite I; apply flat_elements, E].
  - intros other D. unfold list_of. apply find_put_neq. intros Eo. apply D. unfold same_name. rewrite (list_name_key name N). exact Eo.
Qed.

Lemma bseps_next c : re_next LISTS (toupper c) = true -> mem B_SEPS c = false.
Proof. intros H. apply upper_next_chars in H as (_ & H & _). unfold mem, B_SEPS, sep, among, BLANK in *. cbn [existsb] in *. rewrite !eqb_code by lia. lia. Qed.
Lemma name_clean n : list_name n -> clean (mem B_SEPS) n = true /\ without [34] n = true.
Proof.
  intros N. pose proof (list_name_chars _ N) as (c & n' & E & _). pose proof (list_name_all _ N) as A. split.
  - unfold clean. replace (nonempty n) with true by (rewrite E; reflexivity). cbn [andb]. rewrite forallb_forall in *. intros x Hx. apply negb_true_iff, bseps_next, A, Hx.
  - unfold without. rewrite forallb_forall in *. intros x Hx. apply A, upper_next_chars in Hx as (_ & _ & Hx). unfold among in *. cbn [existsb] in *. lia.
Qed.
Lemma vtom_joined l : forallb (clean (mem B_SEPS)) l = true -> forallb (without [34]) l = true -> vtom_chk (joined BLANK l) = l.
Proof.
  intros C Q. unfold vtom_chk. rewrite vtomsq_tokens; [|apply joined_all; [reflexivity|exact Q]]. apply tokens_back; [reflexivity|exact C].
Qed.
Lemma calc_args r a op b : list_name r -> list_name a -> list_name b -> In op [chr 43; chr 42; chr 45; chr 120] -> vtom_chk (joined BLANK [r; a; [op]; b]) = [r; a; [op]; b].
Proof.
  intros R A B O. apply vtom_joined; cbn [forallb]; rewrite ?(proj1 (name_clean r R)), ?(proj1 (name_clean a A)), ?(proj1 (name_clean b B)), ?(proj2 (name_clean r R)), ?(proj2 (name_clean a A)), ?(proj2 (name_clean b B));
  cbn [In] in O; destruct O as [<-|[<-|[<-|[<-|[]]]]]; reflexivity.
Qed.

(** What other lists say does not depend on a list they do not use. *)
Lemma flat_grows ws1 ws2 : (forall x t, list_of ws1 x = Some t -> list_of ws2 x = Some t) -> forall n l r, flat ws1 n l r -> flat ws2 n l r.
Proof. intros G n l r H. induction H as [n|n w l r E F IH|n x t a l r W L Q F IH K IH']; [constructor|constructor; assumption|]. econstructor; try eassumption. apply G, L. Qed.
Lemma items_comma a b : items (a ++ chr 44 :: b) = items a ++ items b.
Proof. unfold items. apply tokens_app. reflexivity. Qed.
Lemma flat_app ws n a ra b rb : flat ws n a ra -> flat ws n b rb -> flat ws n (a ++ b) (ra ++ rb).
Proof.
  intros H. revert b rb. induction H as [n|n w l r E F IH|n x t a l r W L Q F IH G IH']; intros b rb Hb; [exact Hb| |].
  - cbn [app]. constructor; [exact E|apply IH, Hb].
  - cbn [app]. rewrite <- app_assoc. econstructor; try eassumption. apply IH', Hb.
Qed.
Lemma span_stop p w : forall r, forallb p w = true -> (match r with c :: _ => p c = false | [] => True end) -> M_Report.span p (w ++ r) = (w, r).
Proof.
  induction w as [|c w IH]; intros r H S; cbn [app M_Report.span]; [destruct r as [|d r]; [reflexivity|cbn; rewrite S; reflexivity]|].
  cbn [forallb] in H. apply andb_true_iff in H as [-> H]. rewrite IH by assumption. reflexivity.
Qed.
Lemma get_arg0_name name text : list_name name -> without [9] text = true -> get_arg0 (name ++ BLANK :: text) 21 = (name, name ++ BLANK :: text).
Proof.
  intros N T. pose proof (list_name_chars _ N) as (c & n & En & _ & _ & L). pose proof (list_name_all _ N) as A. unfold get_arg0.
  assert (U : untab (name ++ BLANK :: text) = name ++ BLANK :: text).
  { unfold untab. rewrite <- (map_id (name ++ BLANK :: text)) at 2. apply map_ext_in. intros x Hx.
    assert (X : is 9 x = false); [|rewrite X; reflexivity]. apply in_app_or in Hx as [Hx|[<-|Hx]]; [|reflexivity|].
    - rewrite forallb_forall in A. apply A, upper_next_chars in Hx as (_ & Hx & _). unfold sep, among in Hx. cbn [existsb] in Hx. unfold is. lia.
    - unfold without in T. rewrite forallb_forall in T. specialize (T x Hx). unfold among in T. cbn [existsb] in T. unfold is. lia. }
  rewrite U.
  assert (J : ljust (name ++ BLANK :: text) = name ++ BLANK :: text).
  { rewrite En in *. cbn [app] in *. unfold ljust. cbn [forallb] in A. apply andb_true_iff in A as [A _]. apply upper_next_chars in A as (A & _).
    cbn [drop_blanks]. rewrite A, Nat.sub_diag. cbn [repeat]. apply app_nil_r. }
  rewrite J. f_equal. replace (21 - 1)%nat with 20%nat by reflexivity. rewrite firstn_app. rewrite (firstn_all2 name) by lia.
  rewrite span_stop; [reflexivity| |].
  - rewrite forallb_forall in *. intros x Hx. apply negb_true_iff, bseps_next, A, Hx.
  - destruct (20 - length name)%nat; [exact I|reflexivity].
Qed.
