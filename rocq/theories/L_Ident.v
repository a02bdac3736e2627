(** The order of execution of identities. *)
From Coq Require Import ZArith Ascii String List Bool Lia Permutation.
From Verif Require Import M_Base M_Time M_Names M_Lex M_Compile M_Bytes M_Exec M_Vars M_Ident S_Ident L_Names.
Import ListNotations.
Open Scope nat_scope.

Lemma str_eqb_spec a b : reflect (a = b) (str_eqb a b).
Proof. apply iff_reflect. symmetry. apply str_eqb_iff. Qed.
Lemma index_of_nth (all : idents) n text : NoDup (map fst all) -> forall j, nth_error all j = Some (n, text) ->
  M_Ident.index_of n all = Some j.
Proof.
  induction all as [|[k x] l IH]; intros N j H; [destruct j; discriminate|]. cbn [M_Ident.index_of]. cbn [map fst] in N.
  inversion N as [|? ? Nk Nl]; subst. destruct j as [|j].
  - injection H as -> ->. destruct (str_eqb_spec n n); congruence.
  - cbn [nth_error] in H. destruct (str_eqb_spec k n) as [->|_].
    + exfalso. apply Nk. apply nth_error_In in H. apply (in_map fst) in H. exact H.
    + rewrite (IH Nl j H). reflexivity.
Qed.
Lemma index_of_inv (all : idents) n : forall j, M_Ident.index_of n all = Some j -> exists text, nth_error all j = Some (n, text).
Proof.
  induction all as [|[k x] l IH]; intros j H; [discriminate|]. cbn [M_Ident.index_of] in H.
  destruct (str_eqb_spec k n) as [->|_]; [injection H as <-; exists x; reflexivity|].
  destruct (M_Ident.index_of n l) as [p|]; [|discriminate]. injection H as <-. apply IH. reflexivity.
Qed.

(** What is placed is marked, and comes after the identities that it uses. *)
Record placed (all : idents) (mark : list bool) (order : list nat) : Prop := {
  p_len : length mark = length all;
  p_mark : forall i, marked mark i = true <-> In i order;
  p_nodup : NoDup order;
  p_in : forall i, In i order -> i < length all;
  p_topo : forall a i b x n p, order = a ++ i :: b -> nth_error all i = Some x -> In n (uses (snd x)) ->
    is_coefficient n = false -> fst x <> n -> M_Ident.index_of n all = Some p -> In p a
}.
Lemma set_mark_len mark : forall i, length (set_mark mark i) = length mark.
Proof. induction mark as [|b m IH]; intros [|i]; cbn; auto. Qed.
Lemma marked_set mark : forall i j, i < length mark -> marked (set_mark mark i) j = (if j =? i then true else marked mark j).
Proof.
  unfold marked. induction mark as [|b m IH]; intros i j H; [cbn in H; lia|].
  destruct i, j; cbn [set_mark nth Nat.eqb]; auto. apply IH. cbn in H. lia.
Qed.
Lemma not_blocked all mark x n p : blocked all mark x = false -> In n (uses (snd x)) -> is_coefficient n = false ->
  fst x <> n -> M_Ident.index_of n all = Some p -> marked mark p = true.
Proof.
  intros B I C N P. destruct (marked mark p) eqn:M; auto. exfalso.
  assert (blocked all mark x = true); [|congruence]. unfold blocked. apply existsb_exists. exists n. split; auto.
  rewrite C, P, M. destruct (str_eqb_spec (fst x) n); [contradiction|]. reflexivity.
Qed.
Lemma snoc_split {X} (l a b : list X) (x i : X) : l ++ [x] = a ++ i :: b ->
  (exists b', l = a ++ i :: b') \/ (i = x /\ l = a).
Proof.
  induction b as [|y b _] using rev_ind; intros H.
  - right. apply app_inj_tail in H. destruct H as [-> ->]. auto.
  - left. exists b. rewrite app_comm_cons, app_assoc in H. apply app_inj_tail in H. apply H.
Qed.
Lemma place_one all mark order x k : placed all mark order -> nth_error all k = Some x -> marked mark k = false ->
  blocked all mark x = false -> placed all (set_mark mark k) (order ++ [k]).
Proof.
  intros P N M B. assert (K : k < length all) by (apply nth_error_Some; congruence).
  destruct P as [L Mk Nd In_ To]. split.
  - rewrite set_mark_len. exact L.
  - intros i. rewrite marked_set by lia. rewrite in_app_iff. cbn [In]. rewrite <- Mk.
    destruct (Nat.eqb_spec i k) as [->|Q]; [split; auto|]. split; [tauto|]. intros [H|[H|[]]]; [exact H|lia].
  - apply NoDup_rev in Nd. rewrite <- (rev_involutive (order ++ [k])). apply NoDup_rev. rewrite rev_app_distr. cbn [rev app].
    constructor; [|exact Nd]. rewrite <- in_rev, <- Mk. congruence.
  - intros i H. apply in_app_iff in H. destruct H as [H|[<-|[]]]; auto.
  - intros a i b y n p S Ny I C Ne P. apply snoc_split in S. destruct S as [[b' S]|[-> <-]].
    + eapply To; eauto.
    + assert (y = x) as -> by congruence. apply Mk. eapply not_blocked; eauto.
Qed.
Lemma pass_stuck all mark order s i : marked mark i = true -> forall l, pass all l i mark order s = (mark, order, s).
Proof. intros H l. induction l as [|x l IH]; cbn [pass]; [reflexivity|]. rewrite H. exact IH. Qed.
Lemma pass_placed all : forall l k mark order s m o s', skipn k all = l -> placed all mark order ->
  pass all l k mark order s = (m, o, s') ->
  placed all m o /\ (exists e, o = order ++ e) /\ (s' = true -> s = false -> length order < length o).
Proof.
  induction l as [|x l IH]; intros k mark order s m o s' Sk P H; cbn [pass] in H.
  - injection H as <- <- <-. split; auto. split; [exists []; symmetry; apply app_nil_r|congruence].
  - assert (nth_error all k = Some x) as Nx.
    { rewrite <- (firstn_skipn k all) at 1. rewrite Sk. rewrite nth_error_app2; rewrite firstn_length.
      - replace (k - Nat.min k (length all)) with 0; [reflexivity|].
        enough (k < length all) by lia. apply (f_equal (@length _)) in Sk. rewrite skipn_length in Sk. cbn in Sk. lia.
      - lia. }
    assert (skipn (S k) all = l) as Sk'.
    { change (S k) with (1 + k). clear -Sk. revert k Sk. induction all as [|y t IHa]; intros k Sk; [rewrite skipn_nil in Sk; discriminate|].
      destruct k; cbn in *; [congruence|]. apply IHa. exact Sk. }
    destruct (marked mark k) eqn:M.
    + rewrite pass_stuck in H by exact M. injection H as <- <- <-.
      split; auto. split; [exists []; symmetry; apply app_nil_r|congruence].
    + destruct (blocked all mark x) eqn:B.
      * eapply IH; eauto.
      * destruct (IH (S k) _ _ _ _ _ _ Sk' (place_one all mark order x k P Nx M B) H) as (P' & (e & ->) & _).
        split; auto. split; [exists (k :: e); rewrite <- app_assoc; reflexivity|].
        intros _ _. rewrite !app_length. cbn. lia.
Qed.
Lemma loop_placed all : forall fuel mark order o, placed all mark order -> reorder_loop fuel all mark order = Some o ->
  exists m, placed all m o /\ length all <= length o.
Proof.
  induction fuel as [|f IH]; intros mark order o P H; cbn [reorder_loop] in H;
    destruct (Nat.ltb_spec (length order) (length all)) as [L|L].
  - discriminate.
  - injection H as <-. exists mark. auto.
  - destruct (pass all all 0 mark order false) as [[m o1] s] eqn:Q. destruct s; [|discriminate].
    destruct (pass_placed all all 0 _ _ _ _ _ _ eq_refl P Q) as (P' & _). eapply IH; eauto.
  - injection H as <-. exists mark. auto.
Qed.
Lemma none_placed all : placed all (repeat false (length all)) [].
Proof.
  split.
  - apply repeat_length.
  - intros i. unfold marked. split; [|intros []]. intros H. exfalso. revert i H. induction (length all) as [|n IH]; intros [|i] H; cbn in H; try discriminate; eauto.
  - constructor.
  - intros i [].
  - intros a i b x n p H. destruct a; discriminate.
Qed.
(** The order returned. *)
Theorem reorder_placed all order : reorder all = Some order -> exists m, placed all m order /\ Permutation order (seq 0 (length all)).
Proof.
  intros H. destruct (loop_placed all _ _ _ _ (none_placed all) H) as (m & P & L). exists m. split; auto.
  apply NoDup_Permutation_bis.
  - apply (p_nodup _ _ _ P).
  - rewrite seq_length. exact L.
  - intros i I. apply in_seq. pose proof (p_in _ _ _ P i I). lia.
Qed.
Theorem reorder_order all order a i b x y j : well_named all -> reorder all = Some order -> order = a ++ i :: b ->
  nth_error all i = Some x -> nth_error all j = Some y -> depends x y -> In j a.
Proof.
  intros (Nd & Co) H S Nx Ny (D & Ne). destruct (reorder_placed all order H) as (m & P & _).
  destruct y as [n text]. cbn [fst] in *. eapply (p_topo _ _ _ P a i b x n j); eauto.
  - apply (Co n text). eapply nth_error_In, Ny.
  - eapply index_of_nth; eauto.
Qed.
Theorem reorder_circular all : well_named all -> circular all -> reorder all = None.
Proof.
  intros W (C & (x0 & X0) & CI & CD). destruct (reorder all) as [order|] eqn:H; auto. exfalso.
  assert (K : forall a b, order = a ++ b -> forall i x, In i a -> nth_error all i = Some x -> ~ C x).
  { induction a as [|k a IH] using rev_ind; intros b S i x I Nx Cx; [destruct I|].
    rewrite <- app_assoc in S. cbn [app] in S. apply in_app_iff in I. destruct I as [I|[<-|[]]].
    - eapply (IH (k :: b) S); eauto.
    - destruct (CD x Cx) as (y & Cy & D). destruct (In_nth_error all y (CI y Cy)) as [j Ny].
      eapply (IH (k :: b) S j y); eauto. eapply reorder_order; eauto. }
  destruct (In_nth_error all x0 (CI x0 X0)) as [i Ni].
  destruct (reorder_placed all order H) as (m & P & Pe).
  apply (K order [] (eq_sym (app_nil_r _)) i x0); auto.
  apply (Permutation_in i (Permutation_sym Pe)). apply in_seq. assert (i < length all) by (apply nth_error_Some; congruence). lia.
Qed.

(** Identities that use only identities placed before them in the alphabetical order are accepted. *)
Lemma pass_forward all : forall l k mark order s, skipn k all = l -> length mark = length all ->
  (forall i, marked mark i = (i <? k)) ->
  (forall i j x y, nth_error all i = Some x -> nth_error all j = Some y -> In (fst y) (uses (snd x)) -> fst x <> fst y -> j < i) ->
  snd (fst (pass all l k mark order s)) = order ++ seq k (length l) /\ (l <> [] -> snd (pass all l k mark order s) = true).
Proof.
  induction l as [|x l IH]; intros k mark order s Sk Lm M F; cbn [pass]; [cbn; rewrite app_nil_r; split; congruence|].
  assert (Kl : k < length all) by (apply (f_equal (@length _)) in Sk; rewrite skipn_length in Sk; cbn in Sk; lia).
  assert (nth_error all k = Some x) as Nx.
  { rewrite <- (firstn_skipn k all) at 1. rewrite Sk. rewrite nth_error_app2; rewrite firstn_length; [|lia].
    replace (k - Nat.min k (length all)) with 0 by lia. reflexivity. }
  assert (skipn (S k) all = l) as Sk'.
  { clear -Sk. revert k Sk. induction all as [|y t IHa]; intros k Sk; [rewrite skipn_nil in Sk; discriminate|].
    destruct k; cbn in *; [congruence|]. apply IHa. exact Sk. }
  rewrite M. rewrite (proj2 (Nat.ltb_ge k k) (le_n k)).
  replace (blocked all mark x) with false.
  2:{ symmetry. destruct (blocked all mark x) eqn:B; auto. exfalso. unfold blocked in B. apply existsb_exists in B.
      destruct B as (n & I & B). destruct (is_coefficient n); [discriminate|]. destruct (str_eqb_spec (fst x) n) as [_|Ne]; [discriminate|].
      destruct (M_Ident.index_of n all) as [p|] eqn:P; [|discriminate]. destruct (index_of_inv all n p P) as [text Ny].
      pose proof (F k p x (n, text) Nx Ny I Ne) as L. rewrite M, (proj2 (Nat.ltb_lt p k) L) in B. discriminate. }
  destruct (IH (S k) (set_mark mark k) (order ++ [k]) true Sk') as [H1 H2]; auto.
  - rewrite set_mark_len. exact Lm.
  - intros i. rewrite marked_set by lia. rewrite M. destruct (Nat.eqb_spec i k), (Nat.ltb_spec i k), (Nat.ltb_spec i (S k)); auto; lia.
  - split.
    + rewrite H1, <- app_assoc. reflexivity.
    + intros _. destruct l as [|y l]; [reflexivity|]. apply H2. discriminate.
Qed.
Theorem reorder_forward all :
  (forall i j x y, nth_error all i = Some x -> nth_error all j = Some y -> depends x y -> j < i) ->
  reorder all = Some (seq 0 (length all)).
Proof.
  intros F. unfold reorder. destruct all as [|x l] eqn:E; [reflexivity|]. rewrite <- E in *.
  destruct (pass_forward all all 0 (repeat false (length all)) [] false eq_refl) as [H1 H2].
  - apply repeat_length.
  - intros i. pose proof (p_mark _ _ _ (none_placed all) i) as M. destruct (marked (repeat false (length all)) i); [exfalso; apply M; reflexivity|].
    reflexivity.
  - intros i j u v Nu Nv I Ne. apply (F i j u v Nu Nv). split; assumption.
  - assert (L : length all <> 0) by (rewrite E; discriminate).
    destruct (length all) as [|n] eqn:Ln; [congruence|]. cbn [reorder_loop length]. rewrite Ln. cbn [Nat.ltb Nat.leb].
    destruct (pass all all 0 (repeat false (S n)) [] false) as [[m o] s]. cbn [fst snd] in *.
    rewrite H2 by (rewrite E; discriminate). rewrite H1. cbn [app].
    destruct n; cbn [reorder_loop]; rewrite seq_length, Ln, Nat.ltb_irrefl; reflexivity.
Qed.

(** The first identity uses no other one, and an identity uses one that comes later: refused. *)
Lemma skipn_at {X} (all l : list X) x : forall k, skipn k all = x :: l -> nth_error all k = Some x /\ skipn (S k) all = l /\ k < length all.
Proof.
  induction all as [|y t IH]; intros k H; [rewrite skipn_nil in H; discriminate|].
  destruct k; cbn [skipn nth_error length] in *; [injection H as -> ->; repeat split; auto; lia|].
  destruct (IH k H) as (A & B & C). repeat split; auto. lia.
Qed.
Lemma pass_first all : forall l k mark order s m o s', skipn k all = l -> length mark = length all ->
  (forall p, marked mark p = true -> p < k) -> pass all l k mark order s = (m, o, s') ->
  (forall p, marked mark p = true -> marked m p = true) /\
  forall p x n q, marked m p = true -> marked mark p = false -> nth_error all p = Some x -> In n (uses (snd x)) ->
    is_coefficient n = false -> fst x <> n -> M_Ident.index_of n all = Some q -> q < p.
Proof.
  induction l as [|y l IH]; intros k mark order s m o s' Sk Lm B H; cbn [pass] in H; [injection H as <- <- <-; split; [auto|congruence]|].
  destruct (skipn_at all l y k Sk) as (Ny & Sk' & Kl).
  destruct (marked mark k) eqn:M; [specialize (B k M); lia|]. destruct (blocked all mark y) eqn:Bl.
  - eapply IH; eauto. intros p Hp. specialize (B p Hp). lia.
  - assert (B' : forall p, marked (set_mark mark k) p = true -> p < S k).
    { intros p. rewrite marked_set by lia. destruct (Nat.eqb_spec p k); [lia|]. intros Hp. specialize (B p Hp). lia. }
    destruct (IH (S k) _ _ _ m o s' Sk' (eq_trans (set_mark_len mark k) Lm) B' H) as [K1 K2].
    split.
    + intros p Hp. apply K1. rewrite marked_set by lia. destruct (p =? k); auto.
    + intros p x n q Hp Np Nx I C Ne Q. destruct (Nat.eq_dec p k) as [->|D].
      * assert (x = y) as -> by congruence. apply B. eapply not_blocked; eauto.
      * apply (K2 p x n q); auto. rewrite marked_set by lia. destruct (Nat.eqb_spec p k); [lia|exact Np].
Qed.
Theorem reorder_backward all x0 i j x y : well_named all -> nth_error all 0 = Some x0 ->
  (forall z, In z all -> ~ depends x0 z) ->
  nth_error all i = Some x -> nth_error all j = Some y -> depends x y -> i < j -> reorder all = None.
Proof.
  intros (Nd & Co) N0 F Nx Ny D L. unfold reorder.
  assert (Ln : j < length all) by (apply nth_error_Some; congruence).
  destruct (length all) as [|n] eqn:Len; [lia|]. cbn [reorder_loop length]. rewrite Len. cbn [Nat.ltb Nat.leb].
  destruct (pass all all 0 (repeat false (S n)) [] false) as [[m o] s] eqn:Q.
  pose proof (none_placed all) as P0. rewrite Len in P0.
  destruct (pass_placed all all 0 _ _ _ _ _ _ eq_refl P0 Q) as (P & _ & _).
  assert (Z0 : forall p, marked (repeat false (S n)) p = false).
  { intros p. pose proof (p_mark _ _ _ P0 p) as K. destruct (marked _ p); [|reflexivity]. exfalso. apply K. reflexivity. }
  destruct (pass_first all all 0 _ _ _ _ _ _ eq_refl (p_len _ _ _ P0) (fun p H => ltac:(rewrite Z0 in H; discriminate)) Q) as [_ K].
  assert (M0 : marked m 0 = true).
  { destruct all as [|z l]; [discriminate|]. injection N0 as ->. cbn [pass] in Q. rewrite Z0 in Q.
    destruct (blocked (x0 :: l) (repeat false (S n)) x0) eqn:B.
    - exfalso. unfold blocked in B. apply existsb_exists in B. destruct B as (v & I & B).
      destruct (is_coefficient v); [discriminate|]. destruct (str_eqb_spec (fst x0) v) as [_|Ne]; [discriminate|].
      destruct (M_Ident.index_of v (x0 :: l)) as [p|] eqn:Pv; [|discriminate]. destruct (index_of_inv _ v p Pv) as [text Nv].
      apply (F (v, text)); [eapply nth_error_In, Nv|]. split; assumption.
    - assert (B' : forall p, marked (set_mark (repeat false (S n)) 0) p = true -> p < 1).
      { intros p. rewrite marked_set by (rewrite repeat_length; lia). rewrite Z0. destruct (Nat.eqb_spec p 0); [lia|discriminate]. }
      destruct (pass_first (x0 :: l) l 1 _ _ _ _ _ _ eq_refl (eq_trans (set_mark_len _ 0) (p_len _ _ _ P0)) B' Q) as [K1 _].
      apply K1. rewrite marked_set by (rewrite repeat_length; lia). reflexivity. }
  assert (Mi : marked m i = false).
  { destruct (marked m i) eqn:Mi; [|reflexivity]. exfalso. destruct y as [v text]. destruct D as [D1 D2]. cbn [fst] in *.
    assert (j < i); [|lia]. apply (K i x v j); auto; [|eapply index_of_nth; eauto]. apply (Co v text). eapply nth_error_In, Ny. }
  destruct s; [|reflexivity].
  assert (Lo : length o < length all).
  { assert (NoDup (i :: o)) as Ndo.
    { constructor; [|apply (p_nodup _ _ _ P)]. rewrite <- (p_mark _ _ _ P). congruence. }
    assert (length (i :: o) <= length (seq 0 (length all))); [|rewrite seq_length in *; cbn in *; lia].
    apply NoDup_incl_length; [exact Ndo|]. intros p [<-|Hp]; apply in_seq; [lia|]. pose proof (p_in _ _ _ P p Hp). lia. }
  destruct n as [|n]; [lia|]. cbn [reorder_loop]. rewrite (proj2 (Nat.ltb_lt _ _) Lo), (pass_stuck all m o false 0 M0). reflexivity.
Qed.
