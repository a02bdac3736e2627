(** The whole execution of identities, to the workspace. *)
From Coq Require Import ZArith Ascii String List Bool Lia Permutation.
From Verif Require Import M_Base M_Time M_Names M_Lex M_Compile M_Bytes M_Exec M_Vars M_Ident S_Vars S_Ident L_Names L_Vars2 L_Same
  L_Ident L_Ident2 L_Ident3.
Import ListNotations.
Open Scope Z_scope.

(** A sample inside another one. *)
Lemma overlap_inside vs xs d e : real_sample vs -> real_sample xs -> difference (s_start xs) (s_start vs) = Ok d -> 0 <= d ->
  difference (s_end vs) (s_end xs) = Ok e -> 0 <= e ->
  overlap vs xs = Ok (s_nb xs, d, 0) /\ overlap xs vs = Ok (s_nb xs, 0, d) /\ d + s_nb xs <= s_nb vs /\
  (sample_eqb xs vs = true -> d = 0 /\ s_nb xs = s_nb vs) /\ (sample_eqb vs xs = true -> d = 0 /\ s_nb xs = s_nb vs).
Proof.
  intros Rv Rx Dd Hd De He.
  destruct (real_idx _ Rv) as (nb & Nv & Ev & Bv & Iv), (real_idx _ Rx) as (nb' & Nx & Ex & Bx & Ix).
  apply difference_inv in Dd. destruct Dd as (Pd & nb1 & N1 & ->). apply difference_inv in De. destruct De as (_ & nb2 & N2 & ->).
  assert (nb1 = nb) as -> by congruence. assert (nb' = nb) as -> by congruence. assert (nb2 = nb) as -> by congruence.
  split; [|split].
  - destruct (overlap_cases vs xs Rv Rx) as [[C _]|(_ & nb3 & N3 & C)]; [congruence|]. assert (nb3 = nb) as -> by congruence.
    unfold oend, ostart in C. destruct C as [[C _]|[_ ->]]; [lia|].
    f_equal; f_equal; [f_equal|]; lia.
  - destruct (overlap_cases xs vs Rx Rv) as [[C _]|(_ & nb3 & N3 & C)]; [congruence|]. assert (nb3 = nb) as -> by congruence.
    unfold oend, ostart in C. destruct C as [[C _]|[_ ->]]; [lia|].
    f_equal; f_equal; [f_equal|]; lia.
  - split; [lia|]. split; unfold sample_eqb; rewrite !andb_true_iff; intros [[S _] N]; apply Z.eqb_eq in N; unfold period_eqb in S;
    repeat rewrite andb_true_iff in S; rewrite ?Z.eqb_eq in S; unfold idx; split; lia || (destruct S as [[-> ->] _]; lia).
Qed.

Section W.
Context (A : arith) (rb : str -> list Z).
Notation F := (F A).
Lemma mapM_get (h : str * str -> res (str * (Z -> F))) : (forall x y, h x = Ok y -> fst y = fst x) -> forall all merged,
  mapM h all = Ok merged -> NoDup (map fst all) ->
  (forall n text, In (n, text) all -> exists f, h (n, text) = Ok (n, f) /\ get n merged = Some f) /\
  (forall n, ~ In n (map fst all) -> get n merged = None).
Proof.
  intros K. induction all as [|[k x] all IH]; intros merged H N; cbn [mapM] in H.
  - injection H as <-. split; [intros n text []|reflexivity].
  - destruct (h (k, x)) as [[k' f]| |] eqn:Hk; try discriminate. cbn [rbind] in H.
    destruct (mapM h all) as [bs| |] eqn:M; try discriminate. cbn [rbind] in H. injection H as <-.
    pose proof (K _ _ Hk) as Kk. cbn [fst] in Kk. subst k'. cbn [map fst] in N. inversion N as [|? ? Nk Nl]; subst.
    destruct (IH bs eq_refl Nl) as [I1 I2]. split.
    + intros n text [E|I]; cbn [get].
      * injection E as -> ->. destruct (str_eqb_spec n n); [|congruence]. exists f. auto.
      * destruct (str_eqb_spec k n) as [->|_]; [exfalso; apply Nk, (in_map fst _ _ I)|]. apply I1, I.
    + intros n Hn. cbn [get]. cbn [map In fst] in Hn. destruct (str_eqb_spec k n) as [->|_]; [exfalso; apply Hn; auto|].
      apply I2. intros C. apply Hn. right. exact C.
Qed.

(** What [ki_exec] does when it succeeds. *)
Lemma ki_exec_ok all ws vfiles scls sfiles xs vs ks out : d_smp ws = Some vs ->
  ki_exec A rb all ws vfiles scls sfiles (Some xs) = Ok (Some (ks, out)) ->
  exists d e order vars E, difference (s_start xs) (s_start vs) = Ok d /\ 0 <= d /\ difference (s_end vs) (s_end xs) = Ok e /\ 0 <= e /\
    reorder all = Some order /\ read_vars A all (series_list all) vs ws vfiles = Ok (Some vars) /\
    scalar_list all = [] /\ ks = vs /\
    execute A rb all order (seqZ d (Z.to_nat (s_nb xs))) {| var_at := fun n => get n vars; scalar := fun _ => None; smp := vs |} = Ok E /\
    out = (fun n => if mem n (map fst all) then var_at E n else None).
Proof.
  intros V H. unfold ki_exec in H. rewrite V in H.
  destruct (difference (s_end vs) (s_end xs)) as [e| |]; try discriminate. cbn [rbind] in H.
  destruct (Z.ltb_spec e 0); [discriminate|].
  destruct (difference (s_start xs) (s_start vs)) as [d| |]; try discriminate. cbn [rbind] in H.
  destruct (Z.ltb_spec d 0); [discriminate|]. cbn [negb] in H.
  assert (exists order, reorder all = Some order /\
    (do r <- read_vars A all (series_list all) vs ws vfiles;
     match r with
     | Some vars => if read_scls (scalar_list all) scls sfiles
        then do E <- execute A rb all order (seqZ d (Z.to_nat (s_nb xs)))
                {| var_at := fun n => get n vars; scalar := fun _ => None; smp := vs |};
             Ok (Some (vs, fun n => if mem n (map fst all) then var_at E n else None))
        else Ok None
     | None => Ok None
     end) = Ok (Some (ks, out))) as (order & Ro & H').
  { destruct all; [discriminate|]. destruct (reorder (p :: all)) as [order|]; [|discriminate]. exists order. split; [reflexivity|exact H]. }
  clear H. destruct (read_vars A all (series_list all) vs ws vfiles) as [[vars|]| |] eqn:Rv; try discriminate. cbn [rbind] in H'.
  destruct (read_scls (scalar_list all) scls sfiles) eqn:Rs; [|discriminate].
  destruct (execute A rb all order _ _) as [E| |] eqn:X; try discriminate. cbn [rbind] in H'. injection H' as <- <-.
  exists d, e, order, vars, E. repeat split; auto. eapply no_scalar, Rs.
Qed.

Theorem whole all ws vfiles scls sfiles xs vs d out : well_named all -> d_smp ws = Some vs -> real_sample vs -> real_sample xs ->
  real_samples ws vfiles -> difference (s_start xs) (s_start vs) = Ok d ->
  execute_idents A rb all ws vfiles scls sfiles xs = Ok (Some out) ->
  0 <= d /\ d + s_nb xs <= s_nb vs /\ exists E : env A, smp E = vs /\ (forall m, scalar E m = None) /\
  (forall n text m, In (n, text) all -> In m (used text) -> ~ In m (map fst all) ->
     first_source ws (sources vfiles) m <> None /\
     exists g, var_at E m = Some g /\ read_from vs (first_source ws (sources vfiles) m) g) /\
  (forall n text, In (n, text) all -> exists old new h, var_at E n = Some new /\
     read_from vs (first_source ws (sources vfiles) n) old /\
     (forall i, ~ d <= i < d + s_nb xs -> new i = old i) /\
     (forall t, d <= t < d + s_nb xs -> evaluate A (own E n old new t) rb text t = Ok (new t)) /\
     out n = Some h /\ (forall i, d <= i < d + s_nb xs -> h i = new i) /\
     (forall i, 0 <= i < s_nb vs -> ~ d <= i < d + s_nb xs ->
        h i = match get n (d_vars ws) with Some g => g i | None => na A end)) /\
  (forall m, ~ In m (map fst all) -> out m = get m (d_vars ws)).
Proof.
  intros W V Rv Rx Rs D H. unfold execute_idents in H.
  destruct (ki_exec A rb all ws vfiles scls sfiles (Some xs)) as [[[ks computed]|]| |] eqn:K; try discriminate.
  cbn [rbind] in H. rewrite V in H.
  destruct (ki_exec_ok all ws vfiles scls sfiles xs vs ks computed V K) as (d' & e & order & vars & E & D' & Hd & De & He & Ro & Re & Sc & -> & X & ->).
  assert (d' = d) as -> by congruence.
  destruct (overlap_inside vs xs d e Rv Rx D Hd De He) as (O1 & O2 & In_ & Q1 & Q2).
  assert (Bx : 0 < s_nb xs <= 32767) by apply Rx.
  split; [exact Hd|]. split; [exact In_|].
  destruct (Z.eqb_spec (s_nb xs) 0); [lia|].
  match type of H with rbind (mapM ?h all) _ = _ => set (step := h) in H; destruct (mapM step all) as [merged| |] eqn:M; try discriminate end.
  cbn [rbind] in H. injection H as <-.
  destruct (mapM_get step) with (all := all) (merged := merged) as [M1 M2]; auto; [|apply W|].
  { intros x y Hx. unfold step in Hx. destruct (mem _ _); [|discriminate]. destruct (var_at E (fst x)); [|discriminate].
    destruct (resample A vs xs f) as [f1| |]; try discriminate. cbn [rbind] in Hx. destruct (d_vars ws).
    - destruct (resample A xs vs f1); try discriminate. injection Hx as <-. reflexivity.
    - rewrite O1 in Hx. cbn [rbind] in Hx. injection Hx as <-. reflexivity. }
  assert (Nw : NoDup (series_list all)) by (apply add_names_nodup; constructor).
  pose proof (read_vars_spec all (series_list all) vs ws vfiles vars Rv Nw Rs Re) as Rd.
  set (E0 := {| var_at := fun n => get n vars; scalar := fun _ => None; smp := vs |} : env A) in *.
  assert (Def : forall m x, In (m, x) all -> var_at E0 m <> None).
  { intros m x I. destruct (Rd m) as (g & G & _); [apply series_in; left; apply (in_map fst _ _ I)|]. cbn. congruence. }
  destruct (execute_frame A rb all d (Z.to_nat (s_nb xs)) order E0 E X) as (F1 & F2 & F3 & _).
  { intros i n0 text _ N. apply (Def n0 text). eapply nth_error_In, N. }
  exists E. split; [exact F1|]. split; [intros m; rewrite F2; reflexivity|]. split; [|split].
  - intros n0 text m I U Nm. rewrite F3.
    2:{ rewrite in_names_at. intros (i & x & _ & N). apply Nm. apply nth_error_In in N. apply (in_map fst _ _ N). }
    assert (Cm : is_coefficient m = false).
    { destruct (is_coefficient m) eqn:C; [|reflexivity]. assert (In m (scalar_list all)) as B by (apply scalar_in; split; eauto).
      rewrite Sc in B. destruct B. }
    destruct (Rd m) as (g & G & R & Nn); [apply series_in; right; split; eauto|].
    split; [intros C; apply Nm, Nn, C|]. exists g. split; [exact G|exact R].
  - intros n0 text I.
    destruct (Rd n0) as (old & G & R & _); [apply series_in; left; apply (in_map fst _ _ I)|].
    destruct (execute_spec A rb all order d (Z.to_nat (s_nb xs)) E0 E n0 text old W Ro Def X I G) as (new & Vn & K1 & K2).
    rewrite Z2Nat.id in K1, K2 by lia.
    destruct (M1 n0 text I) as (h & Hh & Gh). exists old, new, h. rewrite Gh. repeat split; auto.
    + clear M1 M2 M. intros i Hi. unfold step in Hh. cbn [fst] in Hh.
      replace (mem n0 (map fst all)) with true in Hh by (symmetry; apply mem_in, (in_map fst _ _ I)). rewrite Vn in Hh.
      unfold resample in Hh. rewrite O1 in Hh. cbn [rbind] in Hh.
      assert (Rn : forall j, 0 <= j < s_nb xs -> (if sample_eqb xs vs then new else moved A (s_nb xs) 0 d new (fun _ => na A)) j = new (j + d)).
      { intros j Hj. destruct (sample_eqb xs vs); [destruct (Q1 eq_refl) as [-> _]; f_equal; lia|]. unfold moved.
        destruct (Z.leb_spec 0 j), (Z.ltb_spec j (0 + s_nb xs)); try lia. cbn [andb]. f_equal. lia. }
      assert (Tf : forall j g, d <= j < d + s_nb xs -> moved A (s_nb xs) d 0 (if sample_eqb xs vs then new else moved A (s_nb xs) 0 d new (fun _ => na A)) g j = new j).
      { intros j g Hj. unfold moved at 1. destruct (Z.leb_spec d j), (Z.ltb_spec j (d + s_nb xs)); try lia. cbn [andb].
        rewrite Rn by lia. f_equal. lia. }
      destruct (sample_eqb xs vs) eqn:Sx; cbn [rbind] in Hh; (destruct (d_vars ws);
        [destruct (sample_eqb vs xs) eqn:Sv; cbn [rbind] in Hh; [|rewrite O2 in Hh; cbn [rbind] in Hh]|]; injection Hh as <-;
        try (apply Tf; exact Hi)).
      * destruct (Q1 eq_refl) as [-> _]. reflexivity.
      * destruct (Q2 eq_refl) as [-> ?]. rewrite Rn by lia. f_equal. lia.
    + clear M1 M2 M. intros i Bi Hi. unfold step in Hh. cbn [fst] in Hh.
      replace (mem n0 (map fst all)) with true in Hh by (symmetry; apply mem_in, (in_map fst _ _ I)). rewrite Vn in Hh.
      unfold resample in Hh. rewrite O1 in Hh. cbn [rbind] in Hh.
      assert (Ou : forall f g, moved A (s_nb xs) d 0 f g i = g i).
      { intros f g. unfold moved. destruct (Z.leb_spec d i), (Z.ltb_spec i (d + s_nb xs)); try lia; reflexivity. }
      destruct (sample_eqb xs vs) eqn:Sx; [destruct (Q1 eq_refl); lia|]. cbn [rbind] in Hh. destruct (d_vars ws).
      * destruct (sample_eqb vs xs) eqn:Sv; [destruct (Q2 eq_refl); lia|]. cbn [rbind] in Hh. rewrite O2 in Hh. cbn [rbind] in Hh.
        injection Hh as <-. apply Ou.
      * injection Hh as <-. rewrite Ou. change (let (k, x) := p in if str_eqb k n0 then Some x else get n0 l) with (get n0 (p :: l)).
        destruct (get n0 (p :: l)); reflexivity.
  - intros m Hm. rewrite M2 by exact Hm. reflexivity.
Qed.

(** Every position is that of a period. *)
Lemma at_position vs i : real_sample vs -> 0 <= i < s_nb vs -> exists q, position vs q = Ok i.
Proof.
  intros Rv Hi. destruct (real_idx _ Rv) as (nb & Nv & Ev & Bv & Iv).
  exists (mkP (year (s_start vs)) (M_Time.step (s_start vs) + i) (per (s_start vs))).
  rewrite (position_idx vs nb _ Nv). cbn [per]. rewrite Ascii.eqb_refl. cbn zeta. unfold idx. cbn [year M_Time.step].
  replace (nb * year (s_start vs) + (M_Time.step (s_start vs) + i) - (nb * year (s_start vs) + M_Time.step (s_start vs))) with i by ring.
  destruct (Z.ltb_spec i 0); [lia|]. destruct (Z.leb_spec (s_nb vs) i); [lia|]. reflexivity.
Qed.
(** Without files: the identities hold in the workspace. *)
Theorem whole_ws all ws scls sfiles xs vs d out n text : well_named all -> d_smp ws = Some vs -> real_sample vs -> real_sample xs ->
  difference (s_start xs) (s_start vs) = Ok d -> execute_idents A rb all ws [] scls sfiles xs = Ok (Some out) ->
  In (n, text) all -> let old := match get n (d_vars ws) with Some g => g | None => fun _ => na A end in
  exists h, out n = Some h /\ forall t, d <= t < d + s_nb xs ->
    evaluate A (own {| var_at := out; scalar := fun _ => None; smp := vs |} n old h t) rb text t = Ok (h t).
Proof.
  intros W V Rv Rx D H I old. assert (Rs : real_samples ws []).
  { intros f d0 s [<-|[]] C Q. injection C as <-. rewrite V in Q. injection Q as <-. exact Rv. }
  destruct (whole all ws [] scls sfiles xs vs d out W V Rv Rx Rs D H) as (Hd & Hn & E & Se & Sc & Ex & Id & Ot).
  destruct (Id n text I) as (o & new & h & Vn & Ro & Kn & Ev & On & Hi & Ho). exists h. split; [exact On|]. intros t Ht.
  rewrite (Hi t Ht), <- (Ev t Ht). symmetry.
  assert (Src : forall m g, read_from vs (first_source ws (sources []) m) g -> forall i, 0 <= i < s_nb vs ->
            g i = match get m (d_vars ws) with Some f => f i | None => na A end).
  { intros m g R i Bi. destruct (at_position vs i Rv Bi) as [q P]. rewrite (R q i P). cbn. destruct (get m (d_vars ws)); [|reflexivity].
    cbn. rewrite V. cbn. rewrite P. reflexivity. }
  assert (Of : forall m x, In (m, x) all -> exists new h, var_at E m = Some new /\ out m = Some h /\
             forall i, 0 <= i < s_nb vs -> new i = h i).
  { intros m x Im. destruct (Id m x Im) as (o1 & n1 & h1 & V1 & R1 & K1 & _ & O1 & H1 & G1). exists n1, h1. repeat split; auto.
    intros i Bi. destruct (Z_lt_dec i d), (Z_lt_dec i (d + s_nb xs)); try lia; try (symmetry; apply H1; lia);
      rewrite K1 by lia; rewrite G1 by lia; rewrite (Src m o1 R1 i Bi); reflexivity. }
  apply evaluate_ext. split; [cbn; congruence|]. intros m U. split.
  { cbn. apply Sc. }
  cbn. rewrite Se. destruct (str_eqb_spec m n) as [->|Q].
  - intros i Bi. rewrite (Src n o Ro i Bi). unfold old. destruct (Of n text I) as (n2 & h2 & V2 & O2 & K2).
    assert (n2 = new) as -> by congruence. assert (h2 = h) as -> by congruence. rewrite K2 by exact Bi.
    destruct (i <? t); [reflexivity|]. destruct (get n (d_vars ws)); reflexivity.
  - destruct (in_dec (list_eq_dec ascii_dec) m (map fst all)) as [Im|Nm].
    + apply in_map_iff in Im. destruct Im as ([m' x] & E1 & Im). cbn in E1. subst m'. destruct (Of m x Im) as (n2 & h2 & -> & -> & K2). exact K2.
    + rewrite (Ot m Nm). destruct (Ex n text m I U Nm) as (Ns & g & -> & Rg). destruct (get m (d_vars ws)) as [f|] eqn:G.
      * intros i Bi. rewrite (Src m g Rg i Bi), G. reflexivity.
      * apply Ns. cbn. rewrite G. reflexivity.
Qed.
End W.
