(** The whole ordering. *)
From Coq Require Import ZArith Ascii String List Bool Lia Permutation Relations.
From Verif Require Import M_Base M_Names M_Lex M_Bytes M_Order S_Order L_Names L_Order L_Order2 L_Order3.
Import ListNotations.
Open Scope Z_scope.

Lemma equations_in m x : In x (equations m) <-> exists e, x = Z.of_nat e /\ (e < length (objs m))%nat.
Proof.
  unfold equations. rewrite in_map_iff. split.
  - intros (e & <- & H). apply in_seq in H. exists e. split; [reflexivity|lia].
  - intros (e & -> & H). exists e. split; [reflexivity|]. apply in_seq. lia.
Qed.
Lemma equations_nodup m : NoDup (equations m).
Proof.
  unfold equations. apply FinFun.Injective_map_NoDup; [|apply seq_NoDup]. intros a b H. now apply Nat2Z.inj.
Qed.

Lemma NoDup_app_ {A} (a b : list A) : NoDup a -> NoDup b -> (forall x, In x a -> In x b -> False) -> NoDup (a ++ b).
Proof.
  intros Ha Hb D. induction Ha as [|x a Hx Ha IH]; [exact Hb|]. cbn. constructor.
  - rewrite in_app_iff. intros [?|?]; [contradiction|]. apply (D x); [now left|assumption].
  - apply IH. intros y H1 H2. apply (D y); [now right|assumption].
Qed.

(** Shape of the result for the two sorting options. *)
Record shape (m : model) (pred succ : list (list Z)) (o : ordering) (P I Q : list Z) : Prop := {
  s_order : o_order o = P ++ I ++ rev Q;
  s_pre : o_pre o = len P; s_inter : o_inter o = len I; s_post : o_post o = len Q;
  s_perm : Permutation (P ++ I ++ rev Q) (equations m);
  s_pjust : forall b1 e b2, P = b1 ++ Z.of_nat e :: b2 -> forall x, mem pred e x -> x < 0 \/ In x b1;
  s_qjust : forall b1 e b2, Q = b1 ++ Z.of_nat e :: b2 -> forall x, mem succ e x -> x < 0 \/ In x (P ++ b1);
  s_pclosed : forall e, (e < length (objs m))%nat -> ~ In (Z.of_nat e) P ->
     exists k, mem pred e (Z.of_nat k) /\ (k < length (objs m))%nat /\ ~ In (Z.of_nat k) P;
  s_qclosed : forall e, In (Z.of_nat e) I -> exists k, mem succ e (Z.of_nat k) /\ In (Z.of_nat k) I
}.

Lemma flag_dec od n e : length od = n -> (e < n)%nat -> nth_error od e = Some true \/ nth_error od e = Some false.
Proof. intros H He. destruct (nth_ex od e) as [[] ->]; [lia| |]; auto. Qed.

Lemma order_shape m dbe eqs sort passes : linked m -> sort <> SORT_NONE ->
  exists pred succ o P I Q, pre_order m 0 (objs m) [] (map (fun _ => []) (objs m)) = Ok (pred, succ) /\
    order m dbe eqs sort passes = Ok o /\ shape m pred succ o P I Q.
Proof.
  intros L Hs. destruct (pre_order_all m L) as (pred & succ & E & Rp & Rs & Hne & _).
  set (n := length (objs m)) in *.
  assert (M0 : forall (A B : Type) (c : B) (l : list A) e q, nth_error (map (fun _ => c) l) e = Some q -> q = c).
  { intros A B c l e q H. apply nth_error_In, in_map_iff in H as (? & <- & _). reflexivity. }
  destruct (build_ok n pred Rp [] (map (fun _ => false) (objs m)) (map (fun _ => 0) (objs m))) as (p & P & EP & IP & CP).
  { intros x. constructor; cbn [ordered sorder nb added].
    - apply map_length.
    - apply map_length.
    - eexists. reflexivity.
    - reflexivity.
    - constructor.
    - intros y. split; [intros []|]. intros (e & _ & F). apply M0 in F. discriminate.
    - intros [|] e b2 Q; discriminate. }
  rewrite len_nil in EP.
  destruct (build_ok n succ Rs P (ordered p) (sorder p)) as (q & Q & EQ & IQ & CQ).
  { intros x. destruct IP as [J1 J2 J3 J4 J5 J6 J7]. constructor; cbn [ordered sorder nb added]; auto.
    - rewrite app_nil_r. exact J5.
    - rewrite app_nil_r. exact J6.
    - intros [|] e b2 C; discriminate. }
  set (U := unplaced 0 (ordered q)).
  assert (HU : forall x, In x U <-> exists e, x = Z.of_nat e /\ nth_error (ordered q) e = Some false).
  { intros x. unfold U. rewrite unplaced_in. split; intros (e & ? & ?); exists e; split; auto; lia. }
  assert (Lod := i_lenod _ _ _ _ _ IQ).
  assert (Perm : Permutation (P ++ Q ++ U) (equations m)).
  { apply NoDup_Permutation.
    - rewrite app_assoc. apply NoDup_app_.
      + exact (i_nodup _ _ _ _ _ IQ).
      + apply unplaced_nodup.
      + intros x Hx Hu. apply HU in Hu as (e & -> & Hu). revert Hx. eapply inv_unplaced; eauto.
    - apply equations_nodup.
    - intros x. rewrite equations_in, app_assoc, in_app_iff. split.
      + intros [Hx|Hx].
        * eapply inv_range in Hx; eauto.
        * apply HU in Hx as (e & -> & Hx). exists e. split; [reflexivity|]. apply nth_lt in Hx. fold n. lia.
      + intros (e & -> & He). destruct (flag_dec _ n e Lod He) as [F|F].
        * left. apply (i_flag _ _ _ _ _ IQ). exists e. auto.
        * right. apply HU. exists e. auto. }
  destruct (i_so _ _ _ _ _ IQ) as (rest & Eso).
  assert (Lrest : length rest = length U).
  { assert (A := i_lenso _ _ _ _ _ IQ). rewrite Eso in A. apply Permutation_length in Perm.
    unfold equations in Perm. rewrite map_length, seq_length in Perm. fold n in Perm. rewrite !app_length in *. lia. }
  assert (NbP : nb p = len P) by exact (i_nb _ _ _ _ _ IP).
  assert (NbQ : nb q = len Q) by exact (i_nb _ _ _ _ _ IQ).
  assert (PJ : forall b1 e b2, P = b1 ++ Z.of_nat e :: b2 -> forall x, mem pred e x -> x < 0 \/ In x b1).
  { exact (i_just _ _ _ _ _ IP). }
  assert (PC : forall e, (e < n)%nat -> ~ In (Z.of_nat e) P ->
     exists k, mem pred e (Z.of_nat k) /\ (k < n)%nat /\ ~ In (Z.of_nat k) P).
  { intros e He Hn. destruct (flag_dec _ n e (i_lenod _ _ _ _ _ IP) He) as [F|F].
    - exfalso. apply Hn. apply (i_flag _ _ _ _ _ IP). exists e. auto.
    - destruct (CP e F) as (k & Hk & Fk). exists k. split; [exact Hk|]. split.
      + apply nth_lt in Fk. now rewrite (i_lenod _ _ _ _ _ IP) in Fk.
      + exact (inv_unplaced _ _ _ _ _ _ IP Fk). }
  assert (QC : forall e, In (Z.of_nat e) U -> exists k, mem succ e (Z.of_nat k) /\ In (Z.of_nat k) U).
  { intros e He. apply HU in He as (e' & Ee & F). apply Nat2Z.inj in Ee. subst e'.
    destruct (CQ e F) as (k & Hk & Fk). exists k. split; [exact Hk|]. apply HU. exists k. auto. }
  assert (Big : exists o, (do so <- (match sort with SORT_BOTH => compute_tri pred (P ++ U ++ rev Q) (len P) (len U) passes | _ => Ok (P ++ U ++ rev Q) end);
      Ok (mkO so (len P) (len U) (len Q))) = Ok o /\ exists I, shape m pred succ o P I Q).
  { assert (exists I, (match sort with SORT_BOTH => compute_tri pred (P ++ U ++ rev Q) (len P) (len U) passes | _ => Ok (P ++ U ++ rev Q) end)
              = Ok (P ++ I ++ rev Q) /\ Permutation U I) as (I & EI & PI).
    { destruct sort.
      - exists U. split; [reflexivity|apply Permutation_refl].
      - apply (compute_tri_ok n pred Rp Hne U P (rev Q) passes); [apply unplaced_nodup|].
        intros x Hx. apply HU in Hx as (e & -> & Hx). exists e. split; [reflexivity|]. apply nth_lt in Hx. lia.
      - now elim Hs. }
    rewrite EI. cbn [rbind]. eexists. split; [reflexivity|]. exists I. constructor; cbn [o_order o_pre o_inter o_post]; auto.
    - unfold len. now rewrite (Permutation_length PI).
    - apply Permutation_trans with (P ++ Q ++ U); [|exact Perm]. apply Permutation_app_head.
      apply Permutation_trans with (rev Q ++ I); [apply Permutation_app_comm|].
      apply Permutation_app; [apply Permutation_sym, Permutation_rev|now apply Permutation_sym].
    - exact (i_just _ _ _ _ _ IQ).
    - intros e He. apply (Permutation_in _ (Permutation_sym PI)) in He. destruct (QC e He) as (k & Hk & Hu).
      exists k. split; [exact Hk|]. exact (Permutation_in _ PI Hu). }
  destruct Big as (o & Eo & I & Sh). exists pred, succ, o, P, I, Q. split; [exact E|]. split; [|exact Sh].
  assert (Rev : reverse_loop (len P) (len Q) 0 (Z.to_nat (len Q / 2)) (sorder q) = Ok (P ++ rev Q ++ rest)).
  { rewrite Eso. apply reverse_ok.
    - unfold len. change 2 with (Z.of_nat 2). rewrite <- Nat2Z.inj_div, Nat2Z.id. reflexivity.
    - lia.
    - lia. }
  assert (Int : inter_loop (len P + len Q) 0 (ordered q) (P ++ rev Q ++ rest) 0 = Ok (P ++ rev Q ++ U, len U)).
  { rewrite app_assoc. rewrite inter_ok.
    - fold U. rewrite <- Lrest, skipn_all, app_nil_r, <- app_assoc. reflexivity.
    - rewrite len_app. unfold len. rewrite rev_length. lia.
    - fold U. lia. }
  assert (LQ : len Q = len (rev Q)) by (unfold len; now rewrite rev_length).
  assert (Rot : rotate (len P) (len U) (len Q) (P ++ rev Q ++ U) = P ++ U ++ rev Q) by (rewrite LQ; apply rotate_ok).
  unfold order. destruct sort; [| |now elim Hs];
    rewrite E; cbn [rbind]; rewrite EP; cbn [rbind]; rewrite NbP, EQ; cbn [rbind]; rewrite NbQ, Rev; cbn [rbind];
    rewrite Int; cbn [rbind]; rewrite Rot; exact Eo.
Qed.

(** * Ranks *)

Lemma nodup_rank (l : list Z) a b x : NoDup l -> nth_error l a = Some x -> nth_error l b = Some x -> a = b.
Proof.
  intros N Ha Hb. apply (proj1 (NoDup_nth_error l) N); [|congruence]. now apply nth_lt in Ha.
Qed.

Lemma nth_error_rev_ (l : list Z) r : (r < length l)%nat -> nth_error (rev l) r = nth_error l (length l - 1 - r).
Proof.
  intros H. rewrite (nth_error_nth' (rev l) 0) by (rewrite rev_length; lia). rewrite (nth_error_nth' l 0) by lia.
  f_equal. rewrite rev_nth by lia. f_equal. lia.
Qed.

Lemma order_respects m dbe eqs sort passes o : linked m -> sort <> SORT_NONE -> order m dbe eqs sort passes = Ok o ->
  forall i k a b, uses m i k -> at_rank o a i -> at_rank o b k ->
    (Z.of_nat a < o_pre o -> (b < a)%nat) /\ (o_pre o + o_inter o <= Z.of_nat b -> (b < a)%nat).
Proof.
  intros L Hs E i k a b U Ha Hb. destruct (order_shape m dbe eqs sort passes L Hs) as (pred & succ & o' & P & I & Q & Ep & Eo & S).
  rewrite E in Eo. inversion Eo; subst o'. clear Eo.
  destruct (pre_order_all m L) as (pred' & succ' & Ep' & _ & _ & _ & HU & _). rewrite Ep in Ep'. inversion Ep'; subst pred' succ'. clear Ep'.
  destruct (HU i k U) as [Mp Ms].
  assert (ND : NoDup (P ++ I ++ rev Q)).
  { apply (Permutation_NoDup (Permutation_sym (s_perm _ _ _ _ _ _ _ S))). apply equations_nodup. }
  unfold at_rank in Ha, Hb. rewrite (s_order _ _ _ _ _ _ _ S) in Ha, Hb.
  rewrite (s_pre _ _ _ _ _ _ _ S), (s_inter _ _ _ _ _ _ _ S).
  assert (InP : forall c1 c2, P = c1 ++ Z.of_nat i :: c2 -> exists r, nth_error c1 r = Some (Z.of_nat k)).
  { intros c1 c2 EP. destruct (s_pjust _ _ _ _ _ _ _ S c1 i c2 EP _ Mp) as [?|Hin]; [lia|]. now apply In_nth_error. }
  split.
  - intros Hlt. unfold len in Hlt. rewrite nth_error_app1 in Ha by lia.
    destruct (nth_error_split _ _ Ha) as (c1 & c2 & EP & Lc). destruct (InP c1 c2 EP) as (r & Hr).
    assert (Hlr := nth_lt _ _ _ Hr).
    assert (Hr' : nth_error (P ++ I ++ rev Q) r = Some (Z.of_nat k)).
    { rewrite EP, <- app_assoc, nth_error_app1 by lia. exact Hr. }
    rewrite (nodup_rank _ _ _ _ ND Hb Hr'). lia.
  - intros Hge. unfold len in Hge. rewrite app_assoc, nth_error_app2 in Hb by (rewrite app_length; lia).
    rewrite app_length in Hb. assert (Hbl := nth_lt _ _ _ Hb). rewrite rev_length in Hbl.
    set (r := (b - (length P + length I))%nat) in *.
    assert (Hq : nth_error Q (length Q - 1 - r) = Some (Z.of_nat k)).
    { rewrite <- nth_error_rev_ by lia. exact Hb. }
    destruct (nth_error_split _ _ Hq) as (c1 & c2 & EQ & Lc).
    destruct (s_qjust _ _ _ _ _ _ _ S c1 k c2 EQ _ Ms) as [?|Hin]; [lia|]. apply in_app_iff in Hin as [Hin|Hin].
    + exfalso. apply in_split in Hin as (d1 & d2 & EP). destruct (InP d1 d2 EP) as (s & Hs').
      assert (Hs1 := nth_lt _ _ _ Hs').
      assert (B1 : nth_error (P ++ I ++ rev Q) s = Some (Z.of_nat k)).
      { rewrite EP, <- app_assoc, nth_error_app1 by lia. exact Hs'. }
      assert (B2 : nth_error (P ++ I ++ rev Q) b = Some (Z.of_nat k)).
      { rewrite app_assoc, nth_error_app2 by (rewrite app_length; lia). rewrite app_length. exact Hb. }
      assert (s = b) by exact (nodup_rank _ _ _ _ ND B1 B2).
      rewrite EP, app_length in Hge. lia.
    + apply In_nth_error in Hin as (s & Hs'). assert (Hs1 := nth_lt _ _ _ Hs').
      assert (Lq : (s < length Q - 1 - r)%nat) by lia.
      assert (A2 : nth_error (P ++ I ++ rev Q) (length P + length I + (length Q - 1 - s)) = Some (Z.of_nat i)).
      { rewrite app_assoc, nth_error_app2 by (rewrite app_length; lia). rewrite app_length.
        replace (length P + length I + (length Q - 1 - s) - (length P + length I))%nat with (length Q - 1 - s)%nat by lia.
        rewrite nth_error_rev_ by lia. replace (length Q - 1 - (length Q - 1 - s))%nat with s by lia.
        rewrite EQ, nth_error_app1 by lia. exact Hs'. }
      rewrite (nodup_rank _ _ _ _ ND Ha A2). lia.
Qed.

Lemma order_permutation m dbe eqs sort passes : linked m -> sort <> SORT_NONE ->
  exists o, order m dbe eqs sort passes = Ok o /\ Permutation (o_order o) (equations m) /\
    0 <= o_pre o /\ 0 <= o_inter o /\ 0 <= o_post o /\ o_pre o + o_inter o + o_post o = len (objs m).
Proof.
  intros L Hs. destruct (order_shape m dbe eqs sort passes L Hs) as (pred & succ & o & P & I & Q & Ep & Eo & S).
  exists o. split; [exact Eo|]. rewrite (s_order _ _ _ _ _ _ _ S), (s_pre _ _ _ _ _ _ _ S), (s_inter _ _ _ _ _ _ _ S), (s_post _ _ _ _ _ _ _ S).
  assert (Pm := s_perm _ _ _ _ _ _ _ S). split; [exact Pm|]. apply Permutation_length in Pm.
  unfold equations in Pm. rewrite map_length, seq_length, !app_length, rev_length in Pm. unfold len. lia.
Qed.

(** * Recursive models *)

Lemma walk_cycle (R : nat -> nat -> Prop) (S : nat -> Prop) n :
  (forall x, S x -> (x < n)%nat /\ exists y, S y /\ R x y) ->
  forall x, S x -> exists z, clos_trans nat R z z.
Proof.
  intros Step.
  assert (G : forall fuel vis x, S x -> NoDup (x :: vis) -> (forall v, In v vis -> S v /\ clos_trans nat R v x) ->
              (n < fuel + length vis)%nat -> exists z, clos_trans nat R z z).
  { induction fuel as [|fuel IH]; intros vis x Hx ND HV Hf.
    - exfalso. assert (incl (x :: vis) (seq 0 n)).
      { intros v [<-|Hv]; apply in_seq; split; try lia; apply Step; [exact Hx|now apply HV]. }
      apply NoDup_incl_length in H; [|exact ND]. rewrite seq_length in H. cbn [length] in H. lia.
    - destruct (Step x Hx) as (_ & y & Hy & Rxy).
      assert (HV' : forall v, In v (x :: vis) -> S v /\ clos_trans nat R v y).
      { intros v [<-|Hv]; [split; [exact Hx|now apply t_step]|]. destruct (HV v Hv) as [? T]. split; [assumption|].
        eapply t_trans; [exact T|now apply t_step]. }
      destruct (in_dec Nat.eq_dec y (x :: vis)) as [Hin|Hnin].
      + exists y. now apply HV'.
      + apply (IH (x :: vis) y Hy); [now constructor|exact HV'|cbn [length]; lia]. }
  intros x Hx. apply (G (1 + n)%nat [] x Hx).
  - constructor; [intros []|constructor].
  - intros v [].
  - cbn [length]. lia.
Qed.

Lemma clos_inv (A : Type) (R : A -> A -> Prop) x y : clos_trans A (fun a b => R b a) x y -> clos_trans A R y x.
Proof.
  induction 1 as [? ? H|? ? ? _ IH1 _ IH2]; [now apply t_step|]. eapply t_trans; eauto.
Qed.

Lemma recursive_no_inter m dbe eqs sort passes o : linked m -> exact_tables m -> recursive m -> sort <> SORT_NONE ->
  order m dbe eqs sort passes = Ok o -> o_inter o = 0.
Proof.
  intros L X R Hs E. destruct (order_shape m dbe eqs sort passes L Hs) as (pred & succ & o' & P & I & Q & Ep & Eo & S).
  rewrite E in Eo. inversion Eo; subst o'. clear Eo. rewrite (s_inter _ _ _ _ _ _ _ S).
  destruct I as [|x I0] eqn:EI; [reflexivity|exfalso]. rewrite <- EI in S.
  destruct (pre_order_all m L) as (pred' & succ' & Ep' & _ & _ & _ & _ & _ & HS). rewrite Ep in Ep'. inversion Ep'; subst pred' succ'. clear Ep'.
  assert (Rg : forall y, In y I -> exists e, y = Z.of_nat e /\ (e < length (objs m))%nat).
  { intros y Hy. apply equations_in. apply (Permutation_in _ (s_perm _ _ _ _ _ _ _ S)). rewrite !in_app_iff. auto. }
  destruct (Rg x) as (e & -> & He); [rewrite EI; now left|].
  destruct (walk_cycle (fun a b => uses m b a) (fun e => In (Z.of_nat e) I) (length (objs m))) with (x := e) as (z & C).
  - intros a Ha. split.
    + destruct (Rg _ Ha) as (e' & Ee & ?). apply Nat2Z.inj in Ee. now subst.
    + destruct (s_qclosed _ _ _ _ _ _ _ S a Ha) as (k & Hk & Hin). exists k. split; [exact Hin|].
      assert (Q' := HS X a (Z.of_nat k) Hk). rewrite Nat2Z.id in Q'. apply Q'. lia.
  - rewrite EI. now left.
  - apply (R z). now apply clos_inv.
Qed.

Lemma recursive_prolog m dbe eqs sort passes o : linked m -> exact_tables m -> recursive m ->
  (forall i, ~ has_coefficient m i) -> sort <> SORT_NONE -> order m dbe eqs sort passes = Ok o -> o_pre o = len (objs m).
Proof.
  intros L X R NC Hs E. destruct (order_shape m dbe eqs sort passes L Hs) as (pred & succ & o' & P & I & Q & Ep & Eo & S).
  rewrite E in Eo. inversion Eo; subst o'. clear Eo. rewrite (s_pre _ _ _ _ _ _ _ S).
  destruct (pre_order_all m L) as (pred' & succ' & Ep' & _ & _ & _ & _ & HP & _). rewrite Ep in Ep'. inversion Ep'; subst pred' succ'. clear Ep'.
  assert (All : forall e, (e < length (objs m))%nat -> In (Z.of_nat e) P).
  { intros e He. destruct (in_dec Z.eq_dec (Z.of_nat e) P) as [Hi|Hn]; [exact Hi|exfalso].
    destruct (walk_cycle (uses m) (fun e => (e < length (objs m))%nat /\ ~ In (Z.of_nat e) P) (length (objs m))) with (x := e) as (z & C).
    - intros a [Ha Hna]. split; [exact Ha|]. destruct (s_pclosed _ _ _ _ _ _ _ S a Ha Hna) as (k & Hk & Hkl & Hkn).
      exists k. split; [auto|]. destruct (HP X a (Z.of_nat k) Hk) as [U|[_ Hc]]; [lia| |now elim (NC a)].
      now rewrite Nat2Z.id in U.
    - auto.
    - now apply (R z). }
  assert (Pm := s_perm _ _ _ _ _ _ _ S). assert (ND : NoDup (P ++ I ++ rev Q)).
  { apply (Permutation_NoDup (Permutation_sym Pm)). apply equations_nodup. }
  assert (incl (equations m) P). { intros x Hx. apply equations_in in Hx as (e & -> & He). now apply All. }
  apply NoDup_incl_length in H; [|apply equations_nodup]. apply Permutation_length in Pm.
  unfold equations in *. rewrite map_length, seq_length in *. rewrite app_length in Pm. unfold len. lia.
Qed.

(** * Without sorting *)

Lemma given_ok dbe eqs n : length eqs = n -> given_order dbe eqs n = Ok (map (pos_of dbe) eqs).
Proof.
  revert n. induction eqs as [|e eqs IH]; intros n <-; [reflexivity|]. cbn [length given_order].
  rewrite (IH _ eq_refl). reflexivity.
Qed.
