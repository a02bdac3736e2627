(** The values calculated by the execution of identities. *)
From Coq Require Import ZArith Ascii String List Bool Lia Permutation.
From Verif Require Import M_Base M_Time M_Names M_Lex M_Compile M_Bytes M_Exec M_Vars M_Ident S_Ident L_Names L_Same L_Ident.
Import ListNotations.
Open Scope Z_scope.

Section P.
Context (A : arith) (rb : str -> list Z).
Notation F := (F A).

Lemma in_seqZ n : forall s t, In t (seqZ s n) <-> s <= t < s + Z.of_nat n.
Proof.
  induction n as [|n IH]; intros s t; cbn [seqZ In]; [lia|]. rewrite IH. lia.
Qed.
Lemma store_other (E : env A) n t v m : m <> n -> var_at (store A E n t v) m = var_at E m.
Proof. intros H. cbn. destruct (str_eqb_spec m n); [contradiction|reflexivity]. Qed.

(** One identity over consecutive periods. *)
Lemma periods_spec text n : forall k s (E E' : env A) f, execute_periods A rb text n (seqZ s k) E = Ok E' -> var_at E n = Some f ->
  smp E' = smp E /\ scalar E' = scalar E /\ (forall m, m <> n -> var_at E' m = var_at E m) /\
  exists f', var_at E' n = Some f' /\ (forall i, ~ s <= i < s + Z.of_nat k -> f' i = f i) /\
    forall t, s <= t < s + Z.of_nat k -> evaluate A (own E n f f' t) rb text t = Ok (f' t).
Proof.
  induction k as [|k IH]; intros s E E' f H V; cbn [seqZ execute_periods] in H.
  - injection H as <-. repeat split; auto. exists f. repeat split; auto. intros t. lia.
  - destruct (evaluate A E rb text s) as [v| |] eqn:Ev; try discriminate. cbn [rbind] in H.
    set (g := fun i => if i =? s then v else f i).
    assert (Vg : var_at (store A E n s v) n = Some g) by (cbn; destruct (str_eqb_spec n n); [|congruence]; rewrite V; reflexivity).
    destruct (IH _ _ _ _ H Vg) as (H1 & H2 & H3 & f' & H4 & H5 & H6).
    repeat split; auto.
    + intros m Hm. rewrite H3 by exact Hm. apply store_other, Hm.
    + exists f'. repeat split; auto.
      * intros i Hi. rewrite H5 by lia. unfold g. destruct (Z.eqb_spec i s); [lia|reflexivity].
      * intros t Ht. destruct (Z.eq_dec t s) as [->|D].
        -- rewrite (H5 s) by lia. unfold g at 1. rewrite Z.eqb_refl. rewrite <- Ev. apply evaluate_ext. split; [reflexivity|].
           intros m _. split; [reflexivity|]. cbn. destruct (str_eqb_spec m n) as [->|_].
           ++ rewrite V. intros i _. destruct (Z.ltb_spec i s); [|reflexivity].
              rewrite H5 by lia. unfold g. destruct (Z.eqb_spec i s); [lia|reflexivity].
           ++ destruct (var_at E m); auto.
        -- rewrite <- (H6 t) by lia. apply evaluate_ext. split; [reflexivity|]. intros m _. split; [reflexivity|]. cbn.
           destruct (str_eqb_spec m n) as [->|_].
           ++ intros i _. destruct (Z.ltb_spec i t); [reflexivity|]. unfold g. destruct (Z.eqb_spec i s); [lia|reflexivity].
           ++ destruct (var_at E m); auto.
Qed.

(** The names of some positions. *)
Definition names_at (all : idents) (order : list nat) : list str :=
  flat_map (fun i => match nth_error all i with Some x => [fst x] | None => [] end) order.
Lemma in_names_at all order n : In n (names_at all order) <-> exists i text, In i order /\ nth_error all i = Some (n, text).
Proof.
  unfold names_at. rewrite in_flat_map. split.
  - intros (i & I & H). destruct (nth_error all i) as [[m text]|] eqn:N; [|destruct H]. destruct H as [<-|[]]. exists i, text. auto.
  - intros (i & text & I & N). exists i. rewrite N. split; auto. left. reflexivity.
Qed.
Lemma execute_frame all s k : forall order (E E' : env A), execute A rb all order (seqZ s k) E = Ok E' ->
  (forall i n text, In i order -> nth_error all i = Some (n, text) -> var_at E n <> None) ->
  smp E' = smp E /\ scalar E' = scalar E /\ (forall m, ~ In m (names_at all order) -> var_at E' m = var_at E m) /\
  forall m f, var_at E m = Some f -> exists f', var_at E' m = Some f' /\ forall i, ~ s <= i < s + Z.of_nat k -> f' i = f i.
Proof.
  induction order as [|i order IH]; intros E E' H D; cbn [execute] in H.
  - injection H as <-. repeat split; auto. intros m f Hf. exists f. auto.
  - destruct (nth_error all i) as [[n text]|] eqn:N; [|discriminate].
    destruct (execute_periods A rb text n (seqZ s k) E) as [E1| |] eqn:P; try discriminate. cbn [rbind] in H.
    destruct (var_at E n) as [f|] eqn:V; [|exfalso; apply (D i n text); auto; left; reflexivity].
    destruct (periods_spec text n k s E E1 f P V) as (S1 & C1 & O1 & f1 & V1 & K1 & _).
    destruct (IH E1 E' H) as (S2 & C2 & O2 & F2).
    + intros j m x I Nj. destruct (str_eqb_spec m n) as [->|Q]; [congruence|]. rewrite O1 by exact Q. apply (D j m x); auto. right. exact I.
    + split; [congruence|]. split; [congruence|]. split.
      * intros m Hm. cbn [names_at flat_map] in Hm. rewrite N in Hm. cbn [app In fst] in Hm.
        rewrite O2 by (intros K; apply Hm; right; exact K). apply O1. intros ->. apply Hm. left. reflexivity.
      * intros m g Hg. destruct (str_eqb_spec m n) as [->|Q].
        -- assert (g = f) as -> by congruence. destruct (F2 n f1 V1) as (f' & V' & K'). exists f'. split; auto.
           intros j Hj. rewrite K', K1; auto.
        -- apply F2. rewrite O1; auto.
Qed.
Lemma execute_app all ts : forall a b (E E' : env A), execute A rb all (a ++ b) ts E = Ok E' ->
  exists E1, execute A rb all a ts E = Ok E1 /\ execute A rb all b ts E1 = Ok E'.
Proof.
  induction a as [|i a IH]; intros b E E' H; cbn [app execute] in *; [exists E; auto|].
  destruct (nth_error all i) as [[n text]|]; [|discriminate].
  destruct (execute_periods A rb text n ts E) as [E1| |]; try discriminate. cbn [rbind] in *. apply IH. exact H.
Qed.

Theorem execute_spec all order s k (E E' : env A) n text f : well_named all -> reorder all = Some order ->
  (forall m x, In (m, x) all -> var_at E m <> None) ->
  execute A rb all order (seqZ s k) E = Ok E' -> In (n, text) all -> var_at E n = Some f ->
  exists f', var_at E' n = Some f' /\ (forall i, ~ s <= i < s + Z.of_nat k -> f' i = f i) /\
    forall t, s <= t < s + Z.of_nat k -> evaluate A (own E' n f f' t) rb text t = Ok (f' t).
Proof.
  intros W R D H I V. destruct (In_nth_error _ _ I) as [i Ni].
  destruct (reorder_placed all order R) as (mk & Pl & Pe).
  assert (Io : In i order).
  { apply (Permutation_in i (Permutation_sym Pe)). apply in_seq. assert (i < length all)%nat by (apply nth_error_Some; congruence). lia. }
  apply in_split in Io. destruct Io as (a & b & So). pose proof (p_nodup _ _ _ Pl) as Nd. rewrite So in Nd.
  apply NoDup_remove in Nd. destruct Nd as [_ Nd].
  assert (Un : forall j x, nth_error all j = Some (n, x) -> j = i).
  { intros j x Nj. destruct W as [W _]. pose proof (index_of_nth all n x W j Nj). pose proof (index_of_nth all n text W i Ni). congruence. }
  rewrite So in H. apply execute_app in H. destruct H as (E1 & Ha & Hb). cbn [execute] in Hb. rewrite Ni in Hb.
  destruct (execute_periods A rb text n (seqZ s k) E1) as [E2| |] eqn:P; try discriminate. cbn [rbind] in Hb.
  destruct (execute_frame all s k a E E1 Ha) as (S1 & C1 & O1 & F1).
  { intros j m x _ Nj. apply (D m x). eapply nth_error_In, Nj. }
  assert (V1 : var_at E1 n = Some f).
  { rewrite O1; auto. rewrite in_names_at. intros (j & x & Ij & Nj). apply Nd. apply in_app_iff. left. rewrite <- (Un j x Nj). exact Ij. }
  destruct (periods_spec text n k s E1 E2 f P V1) as (S2 & C2 & O2 & f' & V2 & K2 & G).
  destruct (execute_frame all s k b E2 E' Hb) as (S3 & C3 & O3 & F3).
  { intros j m x _ Nj. destruct (str_eqb_spec m n) as [->|Q]; [congruence|]. rewrite O2 by exact Q.
    assert (var_at E m <> None) as K by (apply (D m x); eapply nth_error_In, Nj).
    destruct (var_at E m) as [g|] eqn:Vm; [|congruence]. destruct (F1 m g Vm) as (g' & -> & _). discriminate. }
  exists f'. split; [|split; [exact K2|]].
  - rewrite O3; auto. rewrite in_names_at. intros (j & x & Ij & Nj). apply Nd. apply in_app_iff. right. rewrite <- (Un j x Nj). exact Ij.
  - intros t Ht. rewrite <- (G t Ht). apply evaluate_ext. split; [cbn; congruence|]. intros m Im. split; [cbn; congruence|].
    cbn. destruct (str_eqb_spec m n) as [->|Q]; [auto|].
    assert (var_at E' m = var_at E1 m) as ->; [|destruct (var_at E1 m); auto].
    rewrite O3, O2; auto. rewrite in_names_at. intros (j & x & Ij & Nj). apply Nd. apply in_app_iff. left.
    exfalso. assert (In j a) as Ja.
    { eapply (reorder_order all order a i b (n, text) (m, x) j); eauto. split; cbn; auto. }
    pose proof (p_nodup _ _ _ Pl) as Nd2. rewrite So in Nd2. clear -Nd2 Ja Ij.
    induction a as [|z a IH]; [destruct Ja|]. cbn [app] in Nd2. inversion Nd2; subst. destruct Ja as [->|Ja]; auto.
    apply H1. apply in_app_iff. right. right. exact Ij.
Qed.
End P.
