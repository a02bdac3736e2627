(** Properties C59 to C65: changes of periodicity (the report commands WsHtoL and WsLtoH). *)
From Coq Require Import ZArith Ascii String List Bool Lia QArith Qcanon.
From Verif Require Import M_Base M_Time M_Names M_Lex M_Compile M_Bytes M_Exec M_Exact M_Double M_Kdb M_Vars M_Freq S_Time S_Freq
  L_Time L_Kdb L_Freq L_Freq2 L_Freq3 L_Freq4 L_Freq5 L_Freq6 L_Freq7.
Import ListNotations.
Open Scope Z_scope.

(** * The examples *)
Definition pd (y s : Z) (c : ascii) : period := mkP y s c.
Definition smpl (a b : period) : sample := match make_sample a b with Ok s => s | _ => mkS a b 0 end.
Definition ints (l : list Z) : list (F double) := map (fun z => d_val (Some z)) l.
Definition base (s : sample) (l : list (string * list (F double))) : vdb double := mkVdb s (map (fun p => (S2L (fst p), snd p)) l).
Definition after (r : res (vdb double)) (n : string) : res (option (list (F double))) :=
  do d <- r; Ok (find (S2L n) (v_vars d)).
Definition vect (l : list (option Z)) : res (option (list (F double))) := Ok (Some (map d_val l)).
Lemma ex_ok {T} (r : res T) (P : T -> Prop) : match r with Ok d => P d | _ => False end -> exists d, r = Ok d /\ P d.
Proof. destruct r; try contradiction. eauto. Qed.
Ltac is_ub := vm_cast_no_check (@eq_refl (res (vdb double)) UB).
Ltac is_valid := eexists; split; [constructor|cbn; lia].
Lemma smpl_ok a b c nb : sub_periods c nb -> per a = c -> per b = c -> valid_period a -> valid_period b -> 0 <= ord nb b - ord nb a < 32767 ->
  sample_ok (smpl a b).
Proof.
  intros Hs Pa Pb Va Vb H. assert (Ha : sub_periods (per a) nb) by congruence. unfold smpl.
  rewrite (make_sample_spec a b nb Ha Va Vb) by congruence. destruct (Z.ltb_spec (ord nb b - ord nb a) 0); [lia|]. rewrite to_short_id by lia.
  exists (Z.to_nat (ord nb b - ord nb a)). cbn [s_start s_end s_nb]. repeat split; auto; try lia. apply (ord_steps _ _ _ nb); auto; [congruence|lia].
Qed.
Lemma is_reg A (d : vdb A) nb : sub_periods (per (s_start (v_smp d))) nb -> per (s_end (v_smp d)) = per (s_start (v_smp d)) ->
  valid_period (s_start (v_smp d)) -> valid_period (s_end (v_smp d)) -> 0 <= ord nb (s_end (v_smp d)) - ord nb (s_start (v_smp d)) < 32767 ->
  s_nb (v_smp d) = ord nb (s_end (v_smp d)) - ord nb (s_start (v_smp d)) + 1 ->
  forallb (fun p => Z.of_nat (length (snd p)) =? s_nb (v_smp d)) (v_vars d) = true -> sorted (v_vars d) -> regular A d.
Proof.
  intros Hs Pe V1 V2 B N L St. split; [|split; [exact St|]].
  - exists (Z.to_nat (ord nb (s_end (v_smp d)) - ord nb (s_start (v_smp d)))). repeat split; auto; try lia. apply (ord_steps _ _ _ nb); auto; lia.
  - intros n v Hin. rewrite forallb_forall in L. specialize (L _ Hin). apply Z.eqb_eq in L. exact L.
Qed.
Ltac is_sorted := unfold sorted; vm_compute keys; repeat (constructor; [|repeat (constructor; [vm_compute; reflexivity|]); constructor]); constructor.
Ltac is_regular nb := apply (is_reg _ _ nb); [constructor|reflexivity|is_valid|is_valid|vm_compute; split; [discriminate|reflexivity]|vm_compute; reflexivity
  |vm_compute; reflexivity|is_sorted].
Ltac is_between nb := apply (between_ord (smpl _ _) nb);
  [eapply (smpl_ok _ _ _ nb); [constructor|reflexivity|reflexivity|is_valid|is_valid|cbn; lia]|constructor|split; [is_valid|split; [reflexivity|cbn; lia]]].

(** * C59: from high to low *)
(** Each variable of the source gets, on each period whose values are all in the source, their aggregate; it gets NA on the
    other periods of the converted sample. Missing: sources that do not begin with a period of the workspace, unless the
    workspace is yearly (refuted below), and periodicities that do not divide each other. *)
Theorem C59_htol_partial : forall A meth asked (from ws : vdb A) m wn p0, asked <> [] -> regular A from -> regular A ws ->
  sub_periods (per (s_start (v_smp ws))) wn -> sub_periods (per (s_start (v_smp from))) (m * wn) -> 1 < m ->
  (wn = 1 \/ begins m (v_smp from)) -> covered m (v_smp from) p0 -> in_sample A ws p0 ->
  exists ws', ws_htol A meth asked (Some from) (Some ws) = Ok ws' /\ regular A ws' /\ v_smp ws' = v_smp ws /\
    (forall n, has A ws' n <-> has A ws n \/ has A from n) /\
    (forall n p xs, in_sample A ws p -> values_in A m from n p xs -> value A ws' n p = Some (aggregated A meth xs)) /\
    (forall n p, in_sample A ws p -> has A from n -> ~ covered m (v_smp from) p ->
       value A ws' n p = Some (na A) \/ has A ws n /\ value A ws' n p = value A ws n p).
Proof.
  intros A meth asked from ws m wn p0 Na Rf Rw Hw Hf Hm D C I.
  destruct (htol_defined A meth from (v_smp ws) m wn Rf Hw Hf Hm D p0 C) as (to & E & It).
  destruct (htol_values A meth from (v_smp ws) m wn Rf Hw Hf Hm D to E) as (Rt & Pt & Kt & V & N).
  destruct (command_ok A (htol A meth) asked from ws to p0 Na E Rw Rt I It) as (ws' & Ec & Rw' & Sw & Hh & H1 & H2 & H3 & H4).
  exists ws'. split; [exact Ec|]. split; [exact Rw'|]. split; [exact Sw|]. split; [|split].
  - intros n. rewrite Hh. unfold has. rewrite Kt. reflexivity.
  - intros n p xs Ip Vx. apply H1; auto.
  - intros n p Ip Hn NC. pose proof Rw as (Ow & _). apply (between_ord _ wn _ Ow Hw) in Ip as Bp. destruct Bp as (Vp & _).
    assert (Ht : has A to n) by (unfold has; rewrite Kt; exact Hn).
    destruct (N n p Vp NC) as [E0|E0]; [|left; eapply H1; eauto].
    assert (Nt : ~ in_sample A to p).
    { intros X. pose proof Rt as (Ot & _). destruct (in_sample_pos A to p Ot X) as [i Pi].
      destruct (value_some A to n p i Rt Ht Pi) as [x Ex]. congruence. }
    destruct (find n (v_vars ws)) as [v|] eqn:Ef.
    + assert (Hs : has A ws n) by (apply find_In in Ef; apply in_map_iff; eexists; split; eauto; reflexivity). right. split; auto.
    + left. apply H4; auto. now apply find_None.
Qed.
Print Assumptions C59_htol_partial.
Definition months := base (smpl (pd 2000 2 "M") (pd 2002 12 "M")) [("X"%string, ints (map Z.of_nat (seq 1 35)))].
Definition years := base (smpl (pd 1999 1 "Y") (pd 2003 1 "Y")) [("A"%string, ints [1; 2; 3; 4; 5]); ("X"%string, ints [1; 2; 3; 4; 5])].
Example C59_ex : regular double months /\ regular double years /\ covered 12 (v_smp months) (pd 2001 1 "Y") /\
  in_sample double years (pd 2001 1 "Y") /\
  after (ws_htol double HTOL_SUM [S2L "X"] (Some months) (Some years)) "X" = vect [Some 1; Some 2; Some 210; Some 354; Some 5] /\
  after (ws_htol double HTOL_LAST [S2L "X"] (Some months) (Some years)) "X" = vect [Some 1; Some 2; Some 23; Some 35; Some 5] /\
  after (ws_htol double HTOL_SUM [S2L "X"] (Some months) (Some years)) "A" = vect [Some 1; Some 2; Some 3; Some 4; Some 5].
Proof.
  split; [is_regular 12|]. split; [is_regular 1|]. split; [|split; [is_between 1|repeat split; vm_compute; reflexivity]].
  apply (covered_ord 12 (v_smp months) (pd 2001 1 "Y") 1); [eapply (smpl_ok _ _ _ 12); [constructor|reflexivity|reflexivity|is_valid|is_valid|cbn; lia]|lia|constructor|].
  split; [is_valid|split; [constructor|cbn; lia]].
Qed.

(** A monthly source that begins inside a quarter: the values of 2000Q2 and after are put from 2001Q1 on. *)
Definition months2 := base (smpl (pd 2000 2 "M") (pd 2000 12 "M")) [("X"%string, ints [2; 3; 4; 5; 6; 7; 8; 9; 10; 11; 12])].
Definition quarters := base (smpl (pd 2000 1 "Q") (pd 2002 4 "Q")) [("X"%string, ints [0; 0; 0; 0; 0; 0; 0; 0; 0; 0; 0; 0])].
Definition months3 := base (smpl (pd 2000 2 "M") (pd 2001 2 "M")) [("X"%string, ints [2; 3; 4; 5; 6; 7; 8; 9; 10; 11; 12; 13; 14])].
Theorem C59_placement_refuted : exists (from ws : vdb double) p xs,
  regular double from /\ regular double ws /\ sub_periods (per (s_start (v_smp ws))) 4 /\ sub_periods (per (s_start (v_smp from))) (3 * 4) /\
  covered 3 (v_smp from) p /\ in_sample double ws p /\ values_in double 3 from (S2L "X") p xs /\
  exists ws', ws_htol double HTOL_SUM [S2L "X"] (Some from) (Some ws) = Ok ws' /\
    value double ws' (S2L "X") p <> Some (aggregated double HTOL_SUM xs) /\
    value double ws' (S2L "X") p = value double ws (S2L "X") p.
Proof.
  exists months3, quarters, (pd 2000 2 "Q"), (ints [4; 5; 6]).
  split; [is_regular 12|]. split; [is_regular 4|]. split; [constructor|]. split; [constructor|]. split; [|split; [is_between 4|split]].
  - apply (covered_ord 3 (v_smp months3) (pd 2000 2 "Q") 4); [eapply (smpl_ok _ _ _ 12); [constructor|reflexivity|reflexivity|is_valid|is_valid|cbn; lia]|lia|constructor|].
    split; [is_valid|split; [constructor|cbn; lia]].
  - split; [reflexivity|]. split; [is_valid|]. intros k x Hk.
    assert (D : (k = 0 \/ k = 1 \/ k = 2 \/ 3 <= k)%nat) by lia. destruct D as [->|[->|[->|D]]].
    + exists (pd 2000 4 "M"). split; [exists 4; cbn; repeat split; auto; try constructor; lia|vm_compute in Hk |- *; exact Hk].
    + exists (pd 2000 5 "M"). split; [exists 4; cbn; repeat split; auto; try constructor; lia|vm_compute in Hk |- *; exact Hk].
    + exists (pd 2000 6 "M"). split; [exists 4; cbn; repeat split; auto; try constructor; lia|vm_compute in Hk |- *; exact Hk].
    + exfalso. assert (X : nth_error (ints [4; 5; 6]) k = None) by (apply nth_error_None; cbn; lia). congruence.
  - apply ex_ok. vm_compute. split; [discriminate|reflexivity].
Qed.
Print Assumptions C59_placement_refuted.

(** * C60: the conversions stay within the series *)
(** From high to low: the same fault writes after the end of the converted series. *)
Definition months4 := base (smpl (pd 2000 2 "M") (pd 2001 12 "M")) [("X"%string, ints (map Z.of_nat (seq 2 23)))].
Theorem C60_htol_refuted : exists (from ws : vdb double),
  regular double from /\ regular double ws /\ sub_periods (per (s_start (v_smp ws))) 4 /\ sub_periods (per (s_start (v_smp from))) (3 * 4) /\
  (exists p, covered 3 (v_smp from) p /\ in_sample double ws p) /\
  ws_htol double HTOL_LAST [S2L "X"] (Some from) (Some ws) = UB.
Proof.
  exists months4, quarters. split; [is_regular 12|]. split; [is_regular 4|]. split; [constructor|]. split; [constructor|]. split; [|is_ub].
  exists (pd 2000 2 "Q"). split; [|is_between 4].
  apply (covered_ord 3 (v_smp months4) (pd 2000 2 "Q") 4); [eapply (smpl_ok _ _ _ 12); [constructor|reflexivity|reflexivity|is_valid|is_valid|cbn; lia]|lia|constructor|].
  split; [is_valid|split; [constructor|cbn; lia]].
Qed.
Print Assumptions C60_htol_refuted.
(** From low to high, linear interpolation of a stock: whenever the last two values of a variable are numbers, the code
    reads after the end of the series. *)
Theorem C60_linear_stock_refuted : forall A asked (from ws : vdb A) m fn n, asked <> [] -> regular A from -> regular A ws ->
  sub_periods (per (s_start (v_smp from))) fn -> sub_periods (per (s_start (v_smp ws))) (m * fn) -> 1 < m ->
  year_start (v_smp from) -> fits (per (s_start (v_smp ws))) (v_smp from) ->
  has A from n -> ends_with_numbers A from n -> ws_ltoh A LTOH_LIN LTOH_STOCK asked (Some from) (Some ws) = UB.
Proof.
  intros A asked from ws m fn n Na Rf Rw Hf Hw Hm Ys Fi Hn He. unfold ws_ltoh, command. destruct asked; [congruence|].
  rewrite (ltoh_stock_ub A from (v_smp ws) m fn Rf Hf Hw Hm Ys Fi n Hn He). reflexivity.
Qed.
Print Assumptions C60_linear_stock_refuted.
Definition yearly := base (smpl (pd 2000 1 "Y") (pd 2002 1 "Y")) [("X"%string, ints [4; 8; 24])].
Example C60_ex : regular double yearly /\ regular double quarters /\ year_start (v_smp yearly) /\ fits "Q" (v_smp yearly) /\
  ends_with_numbers double yearly (S2L "X") /\ ws_ltoh double LTOH_LIN LTOH_STOCK [S2L "X"] (Some yearly) (Some quarters) = UB.
Proof.
  split; [is_regular 1|]. split; [is_regular 4|]. split; [reflexivity|]. split; [intros nb H; inversion H; cbn; lia|].
  split; [|is_ub]. exists (pd 2001 1 "Y"). do 2 eexists. split; [is_valid|]. split; [apply (fol_next_year 2001 "Y" 1); constructor|].
  repeat split; vm_compute; reflexivity.
Qed.

(** * C61: from low to high by steps *)
(** Each period of the workspace gets the value of the period it is part of, divided by the number of parts for a flow.
    Missing: sources that do not begin with the first period of a year (refuted below), and periodicities that do not divide
    each other. *)
Theorem C61_step_partial : forall A ty asked (from ws : vdb A) m fn p0 q0 k0, asked <> [] -> regular A from -> regular A ws ->
  sub_periods (per (s_start (v_smp from))) fn -> sub_periods (per (s_start (v_smp ws))) (m * fn) -> 1 < m ->
  year_start (v_smp from) -> fits (per (s_start (v_smp ws))) (v_smp from) ->
  in_sample A from p0 -> part m p0 q0 k0 -> in_sample A ws q0 ->
  exists ws', ws_ltoh A LTOH_STEP ty asked (Some from) (Some ws) = Ok ws' /\ regular A ws' /\ v_smp ws' = v_smp ws /\
    (forall n, has A ws' n <-> has A ws n \/ has A from n) /\
    forall n p q k x, part m p q k -> in_sample A ws q -> in_sample A from p -> value A from n p = Some x ->
      value A ws' n q = Some (if num A x then converted A ty m x else na A).
Proof.
  intros A ty asked from ws m fn p0 q0 k0 Na Rf Rw Hf Hw Hm Ys Fi I0 P0 Iw.
  destruct (ltoh_step_ok A LTOH_STEP ty from (v_smp ws) m fn Rf Hf Hw Hm Ys Fi eq_refl) as (to & E & Rt & Pt & Kt & Bt & In_ & V).
  destruct (command_ok A (ltoh A LTOH_STEP ty) asked from ws to q0 Na E Rw Rt Iw (In_ _ _ _ I0 P0)) as (ws' & Ec & Rw' & Sw & Hh & H1 & _).
  exists ws'. split; [exact Ec|]. split; [exact Rw'|]. split; [exact Sw|]. split.
  - intros n. rewrite Hh. unfold has. rewrite Kt. reflexivity.
  - intros n p q k x Pq Iq Ip Vx. pose proof Rf as (Of & _). apply (between_ord _ fn _ Of Hf) in Ip as Bp. destruct Bp as (Vp & _).
    apply H1; auto. rewrite (V n p q k); auto; [now rewrite Vx|eapply value_has; eauto|eapply In_; eauto].
Qed.
Print Assumptions C61_step_partial.
Example C61_ex : fits "Q" (v_smp yearly) /\ in_sample double yearly (pd 2001 1 "Y") /\ part 4 (pd 2001 1 "Y") (pd 2001 3 "Q") 3 /\
  in_sample double quarters (pd 2001 3 "Q") /\
  after (ws_ltoh double LTOH_STEP LTOH_FLOW [S2L "X"] (Some yearly) (Some quarters)) "X" =
    vect [Some 1; Some 1; Some 1; Some 1; Some 2; Some 2; Some 2; Some 2; Some 6; Some 6; Some 6; Some 6] /\
  after (ws_ltoh double LTOH_STEP LTOH_STOCK [S2L "X"] (Some yearly) (Some quarters)) "X" =
    vect [Some 4; Some 4; Some 4; Some 4; Some 8; Some 8; Some 8; Some 8; Some 24; Some 24; Some 24; Some 24].
Proof.
  split; [intros nb H; inversion H; cbn; lia|]. split; [is_between 1|]. split; [exists 1; cbn; repeat split; try constructor; lia|].
  split; [is_between 4|]. split; vm_compute; reflexivity.
Qed.
(** A quarterly source that begins in the second quarter: its values are put from the first month on. *)
Definition quarterly2 := base (smpl (pd 2000 2 "Q") (pd 2000 4 "Q")) [("X"%string, ints [2; 3; 4])].
Definition monthly := base (smpl (pd 2000 1 "M") (pd 2000 12 "M")) [("X"%string, ints (repeat 0 12))].
Theorem C61_placement_refuted : exists (from ws : vdb double) p q x,
  regular double from /\ regular double ws /\ sub_periods (per (s_start (v_smp from))) 4 /\ sub_periods (per (s_start (v_smp ws))) (3 * 4) /\
  fits (per (s_start (v_smp ws))) (v_smp from) /\ part 3 p q 1 /\ in_sample double ws q /\ in_sample double from p /\
  value double from (S2L "X") p = Some x /\ num double x = true /\
  exists ws', ws_ltoh double LTOH_STEP LTOH_STOCK [S2L "X"] (Some from) (Some ws) = Ok ws' /\ value double ws' (S2L "X") q <> Some x /\
    find (S2L "X") (v_vars ws') = Some (map d_val [Some 2; Some 2; Some 2; Some 3; Some 3; Some 3; Some 4; Some 4; Some 4; None; None; None]).
Proof.
  exists quarterly2, monthly, (pd 2000 2 "Q"), (pd 2000 4 "M"), (d_val (Some 2)).
  split; [is_regular 4|]. split; [is_regular 12|]. split; [constructor|]. split; [constructor|]. split; [intros nb H; inversion H; cbn; lia|].
  split; [exists 4; cbn; repeat split; try constructor; lia|]. split; [is_between 12|]. split; [is_between 4|].
  split; [vm_compute; reflexivity|]. split; [vm_compute; reflexivity|].
  apply ex_ok. vm_compute. split; [discriminate|reflexivity].
Qed.
Print Assumptions C61_placement_refuted.

(** * C62: from low to high, linear *)
(** A flow is divided when the next value is a number too. *)
Theorem C62_linear_flow_partial : forall A asked (from ws : vdb A) m fn p0 q0 k0, asked <> [] -> regular A from -> regular A ws ->
  sub_periods (per (s_start (v_smp from))) fn -> sub_periods (per (s_start (v_smp ws))) (m * fn) -> 1 < m ->
  year_start (v_smp from) -> fits (per (s_start (v_smp ws))) (v_smp from) ->
  in_sample A from p0 -> part m p0 q0 k0 -> in_sample A ws q0 ->
  exists ws', ws_ltoh A LTOH_LIN LTOH_FLOW asked (Some from) (Some ws) = Ok ws' /\ regular A ws' /\ v_smp ws' = v_smp ws /\
    forall n p p' q k x, part m p q k -> in_sample A ws q -> in_sample A from p -> follows p p' ->
      value A from n p = Some x -> num A x = true ->
      (forall x', value A from n p' = Some x' -> num A x' = true -> value A ws' n q = Some (converted A LTOH_FLOW m x)) /\
      ((forall x', value A from n p' = Some x' -> num A x' = false) -> value A ws' n q = Some (na A)).
Proof.
  intros A asked from ws m fn p0 q0 k0 Na Rf Rw Hf Hw Hm Ys Fi I0 P0 Iw.
  destruct (ltoh_lin_flow_ok A LTOH_LIN LTOH_FLOW from (v_smp ws) m fn Rf Hf Hw Hm Ys Fi eq_refl eq_refl) as (to & E & Rt & Pt & Kt & Bt & In_ & V).
  destruct (command_ok A (ltoh A LTOH_LIN LTOH_FLOW) asked from ws to q0 Na E Rw Rt Iw (In_ _ _ _ I0 P0)) as (ws' & Ec & Rw' & Sw & Hh & H1 & _).
  exists ws'. split; [exact Ec|]. split; [exact Rw'|]. split; [exact Sw|].
  intros n p p' q k x Pq Iq Ip Fo Vx Nx. pose proof Rf as (Of & _). apply (between_ord _ fn _ Of Hf) in Ip as Bp. destruct Bp as (Vp & Ep & _).
  assert (Hp : sub_periods (per p) fn) by (rewrite Ep; auto). pose proof (follows_shift p p' fn Vp Hp Fo) as Sh.
  destruct (V n p q k (proj1 (value_has _ _ _ _ _ Vx)) Vp Pq (In_ _ _ _ Ip Pq)) as [W1 W2]. split.
  - intros x' Vx' Nx'. apply H1; auto. eapply W1; eauto.
  - intros Hx. apply H1; auto. eapply W2; eauto.
Qed.
Print Assumptions C62_linear_flow_partial.
(** The last flow is lost. *)
Theorem C62_last_flow_refuted : exists (from ws : vdb double) p q x,
  regular double from /\ regular double ws /\ sub_periods (per (s_start (v_smp from))) 1 /\ sub_periods (per (s_start (v_smp ws))) (4 * 1) /\
  year_start (v_smp from) /\ fits (per (s_start (v_smp ws))) (v_smp from) /\ part 4 p q 1 /\ in_sample double ws q /\ in_sample double from p /\
  value double from (S2L "X") p = Some x /\ num double x = true /\
  exists ws', ws_ltoh double LTOH_LIN LTOH_FLOW [S2L "X"] (Some from) (Some ws) = Ok ws' /\ value double ws' (S2L "X") q = Some (na double).
Proof.
  exists yearly, quarters, (pd 2002 1 "Y"), (pd 2002 1 "Q"), (d_val (Some 24)).
  split; [is_regular 1|]. split; [is_regular 4|]. split; [constructor|]. split; [constructor|]. split; [reflexivity|]. split; [intros nb H; inversion H; cbn; lia|].
  split; [exists 1; cbn; repeat split; try constructor; lia|]. split; [is_between 4|]. split; [is_between 1|].
  split; [vm_compute; reflexivity|]. split; [vm_compute; reflexivity|].
  apply ex_ok. vm_compute. reflexivity.
Qed.
Print Assumptions C62_last_flow_refuted.
Example C62_flow_ex : after (ws_ltoh double LTOH_LIN LTOH_FLOW [S2L "X"] (Some yearly) (Some quarters)) "X" =
    vect [Some 1; Some 1; Some 1; Some 1; Some 2; Some 2; Some 2; Some 2; None; None; None; None].
Proof. vm_compute; reflexivity. Qed.
(** A stock, in exact arithmetic and when no variable ends with two numbers (see C60): the periods of [p'] go from the value
    on [p] to the value on [p'], which is kept on the last period only when a number follows. *)
Theorem C62_linear_stock_partial : forall asked (from ws : vdb exactly) m fn p0 q0 k0, asked <> [] -> regular exactly from -> regular exactly ws ->
  sub_periods (per (s_start (v_smp from))) fn -> sub_periods (per (s_start (v_smp ws))) (m * fn) -> 1 < m ->
  year_start (v_smp from) -> fits (per (s_start (v_smp ws))) (v_smp from) ->
  (forall n, has exactly from n -> ~ ends_with_numbers exactly from n) ->
  in_sample exactly from p0 -> part m p0 q0 k0 -> in_sample exactly ws q0 ->
  exists ws', ws_ltoh exactly LTOH_LIN LTOH_STOCK asked (Some from) (Some ws) = Ok ws' /\ regular exactly ws' /\ v_smp ws' = v_smp ws /\
    forall n p p' q k x x', in_sample exactly from p -> follows p p' -> part m p' q k -> in_sample exactly ws q ->
      value exactly from n p = Some x -> q_num x = true -> value exactly from n p' = Some x' -> q_num x' = true ->
      (k < m -> value exactly ws' n q = Some (x + (x' - x) * q_ofZ k / q_ofZ m)%Qc) /\
      (forall p'' x'', k = m -> follows p' p'' -> value exactly from n p'' = Some x'' ->
         value exactly ws' n q = Some (if q_num x'' then x' else q_na)).
Proof.
  intros asked from ws m fn p0 q0 k0 Na Rf Rw Hf Hw Hm Ys Fi Ne I0 P0 Iw.
  destruct (ltoh_stock_ok from (v_smp ws) m fn Rf Hf Hw Hm Ys Fi Ne) as (to & E & Rt & Pt & Kt & Bt & In_ & V).
  destruct (command_ok exactly (ltoh exactly LTOH_LIN LTOH_STOCK) asked from ws to q0 Na E Rw Rt Iw (In_ _ _ _ I0 P0)) as (ws' & Ec & Rw' & Sw & Hh & H1 & _).
  exists ws'. split; [exact Ec|]. split; [exact Rw'|]. split; [exact Sw|].
  intros n p p' q k x x' Ip Fo Pq Iq Vx Nx Vx' Nx'. pose proof Rf as (Of & _). apply (between_ord _ fn _ Of Hf) in Ip as Bp. destruct Bp as (Vp & Ep & _).
  assert (Hp : sub_periods (per p) fn) by (rewrite Ep; auto). pose proof (follows_shift p p' fn Vp Hp Fo) as Sh.
  apply (follows_ord p p' fn Vp Hp) in Fo. destruct Fo as (Vp' & Pp' & Op').
  assert (Hp' : sub_periods (per p') fn) by (rewrite Pp'; auto).
  assert (Ip' : in_sample exactly from p').
  { apply pos_in_sample; auto. destruct (value_has _ _ _ _ _ Vx') as [_ X]. exact X. }
  destruct (V n p p' q k x x' Vp Sh Pq (In_ _ _ _ Ip' Pq) Vx Nx Vx' Nx') as [W1 W2]. split.
  - intros Hk. apply H1; auto.
  - intros p'' x'' Hk Fo' Vx''. apply H1; auto. eapply W2; eauto. eapply follows_shift; eauto.
Qed.
Print Assumptions C62_linear_stock_partial.
Definition qv (l : list (option Z)) : list (F exactly) := map (fun o => match o with Some z => q_ofZ z | None => q_na end) l.
Definition stock := mkVdb (A := exactly) (smpl (pd 2000 1 "Y") (pd 2003 1 "Y")) [(S2L "X", qv [Some 4; Some 8; Some 24; None])].
Definition qtrs := mkVdb (A := exactly) (smpl (pd 2000 1 "Q") (pd 2002 4 "Q")) [].
Example C62_stock_ex : regular exactly stock /\ regular exactly qtrs /\ (forall n, has exactly stock n -> ~ ends_with_numbers exactly stock n) /\
  match ws_ltoh exactly LTOH_LIN LTOH_STOCK [S2L "X"] (Some stock) (Some qtrs) with
  | Ok d => option_map (map (fun x : Qc => this x)) (find (S2L "X") (v_vars d)) =
      Some (map (fun x : F exactly => this (x : Qc)) (qv [None; None; None; None; Some 5; Some 6; Some 7; Some 8; Some 12; Some 16; Some 20; None]))
  | _ => False
  end.
Proof.
  split; [is_regular 1|]. split; [is_regular 4|]. split; [|vm_compute; reflexivity].
  intros n [<-|[]] (p & x & x' & _ & _ & _ & _ & Vx & Nx). vm_compute in Vx. injection Vx as <-. vm_compute in Nx. discriminate.
Qed.

(** * C63: there and back *)
(** A variable converted by steps to a finer periodicity and back has its values again. *)
Lemma back A ty meth asked (from ws low : vdb A) m fn n p0 x : asked <> [] -> regular A from -> regular A ws -> regular A low ->
  sub_periods (per (s_start (v_smp from))) fn -> per (s_start (v_smp low)) = per (s_start (v_smp from)) ->
  sub_periods (per (s_start (v_smp ws))) (m * fn) -> 1 < m ->
  year_start (v_smp from) -> fits (per (s_start (v_smp ws))) (v_smp from) -> (fn = 1 \/ begins m (v_smp ws)) ->
  in_sample A from p0 -> covered m (v_smp ws) p0 -> in_sample A low p0 -> value A from n p0 = Some x ->
  exists ws' low', ws_ltoh A LTOH_STEP ty asked (Some from) (Some ws) = Ok ws' /\
    ws_htol A meth asked (Some ws') (Some low) = Ok low' /\
    value A low' n p0 = Some (aggregated A meth (repeat (if num A x then converted A ty m x else na A) (Z.to_nat m))).
Proof.
  intros Na Rf Rw Rl Hf El Hw Hm Ys Fi D If Cw Il Vx.
  pose proof Cw as (Vp0 & C). destruct (C 1 ltac:(lia)) as (q1 & P1 & B1).
  destruct (C61_step_partial A ty asked from ws m fn p0 q1 1 Na Rf Rw Hf Hw Hm Ys Fi If P1 B1) as (ws' & E1 & Rw' & Sw & Hh & V).
  assert (Hl : sub_periods (per (s_start (v_smp low))) fn) by (rewrite El; auto).
  destruct (C59_htol_partial A meth asked ws' low m fn p0 Na Rw' Rl Hl ltac:(rewrite Sw; auto) Hm ltac:(rewrite Sw; auto) ltac:(rewrite Sw; auto) Il)
    as (low' & E2 & _ & _ & _ & V2 & _).
  exists ws', low'. split; auto. split; auto. apply V2; auto. split; [rewrite repeat_length; lia|]. split; auto.
  intros k y Hk. assert (Lk : (k < Z.to_nat m)%nat).
  { assert (X : nth_error (repeat (if num A x then converted A ty m x else na A) (Z.to_nat m)) k <> None) by congruence.
    apply nth_error_Some in X. rewrite repeat_length in X. exact X. }
  rewrite (nth_error_nth' _ (na A)) in Hk by (rewrite repeat_length; exact Lk). injection Hk as Hy. subst y.
  destruct (C (Z.of_nat k + 1) ltac:(lia)) as (q & Pq & Bq). exists q. split; auto.
  rewrite (V n p0 q _ x Pq Bq If Vx). f_equal.
  assert (G : forall (a : F A) j i, (i < j)%nat -> nth i (repeat a j) (na A) = a).
  { intros a. induction j; intros i Hi; [lia|]. destruct i; cbn; auto. apply IHj. lia. }
  symmetry. apply G. exact Lk.
Qed.
(** Stocks, taking the last value back. *)
Theorem C63_stock_last_partial : forall A asked (from ws low : vdb A) m fn n p0 x, asked <> [] -> regular A from -> regular A ws -> regular A low ->
  sub_periods (per (s_start (v_smp from))) fn -> per (s_start (v_smp low)) = per (s_start (v_smp from)) ->
  sub_periods (per (s_start (v_smp ws))) (m * fn) -> 1 < m ->
  year_start (v_smp from) -> fits (per (s_start (v_smp ws))) (v_smp from) -> (fn = 1 \/ begins m (v_smp ws)) ->
  in_sample A from p0 -> covered m (v_smp ws) p0 -> in_sample A low p0 -> value A from n p0 = Some x -> num A x = true \/ x = na A ->
  exists ws' low', ws_ltoh A LTOH_STEP LTOH_STOCK asked (Some from) (Some ws) = Ok ws' /\
    ws_htol A HTOL_LAST asked (Some ws') (Some low) = Ok low' /\ value A low' n p0 = Some x.
Proof.
  intros A asked from ws low m fn n p0 x Na Rf Rw Rl Hf El Hw Hm Ys Fi D If Cw Il Vx Hx.
  destruct (back A LTOH_STOCK HTOL_LAST asked from ws low m fn n p0 x Na Rf Rw Rl Hf El Hw Hm Ys Fi D If Cw Il Vx) as (ws' & low' & E1 & E2 & V).
  exists ws', low'. split; auto. split; auto. rewrite V. f_equal. cbn [aggregated].
  assert (L : forall (a : F A) j, (0 < j)%nat -> last (repeat a j) (na A) = a).
  { intros a. induction j; intros Hj; [lia|]. destruct j; auto. change (repeat a (S (S j))) with (a :: repeat a (S j)).
    cbn [last]. change (repeat a (S j)) with (a :: repeat a j). cbn iota. apply IHj. lia. }
  rewrite L by lia. destruct Hx as [Hx|Hx]; [rewrite Hx; reflexivity|]. destruct (num A x); [reflexivity|]. symmetry. exact Hx.
Qed.
Print Assumptions C63_stock_last_partial.
(** Flows, taking the sum back, in exact arithmetic. *)
Theorem C63_flow_sum_partial : forall asked (from ws low : vdb exactly) m fn n p0 x, asked <> [] -> regular exactly from -> regular exactly ws -> regular exactly low ->
  sub_periods (per (s_start (v_smp from))) fn -> per (s_start (v_smp low)) = per (s_start (v_smp from)) ->
  sub_periods (per (s_start (v_smp ws))) (m * fn) -> 1 < m ->
  year_start (v_smp from) -> fits (per (s_start (v_smp ws))) (v_smp from) -> (fn = 1 \/ begins m (v_smp ws)) ->
  in_sample exactly from p0 -> covered m (v_smp ws) p0 -> in_sample exactly low p0 -> value exactly from n p0 = Some x -> q_num x = true \/ x = q_na ->
  exists ws' low', ws_ltoh exactly LTOH_STEP LTOH_FLOW asked (Some from) (Some ws) = Ok ws' /\
    ws_htol exactly HTOL_SUM asked (Some ws') (Some low) = Ok low' /\ value exactly low' n p0 = Some x.
Proof.
  intros asked from ws low m fn n p0 x Na Rf Rw Rl Hf El Hw Hm Ys Fi D If Cw Il Vx Hx.
  destruct (back exactly LTOH_FLOW HTOL_SUM asked from ws low m fn n p0 x Na Rf Rw Rl Hf El Hw Hm Ys Fi D If Cw Il Vx) as (ws' & low' & E1 & E2 & V).
  exists ws', low'. split; auto. split; auto. rewrite V. f_equal. cbn [aggregated]. change (num exactly x) with (q_num x).
  destruct (q_num x) eqn:Nx; [apply converted_flow; auto; lia|]. destruct Hx as [Hx|Hx]; [discriminate|]. rewrite Hx. apply (total_na m). lia.
Qed.
Print Assumptions C63_flow_sum_partial.
Example C63_ex : regular exactly stock /\ regular exactly qtrs /\ covered 4 (v_smp qtrs) (pd 2001 1 "Y") /\ in_sample exactly stock (pd 2001 1 "Y") /\
  year_start (v_smp stock) /\ fits "Q" (v_smp stock) /\
  match (do ws' <- ws_ltoh exactly LTOH_STEP LTOH_FLOW [S2L "X"] (Some stock) (Some qtrs);
         ws_htol exactly HTOL_SUM [S2L "X"] (Some ws') (Some (mkVdb (v_smp stock) []))) with
  | Ok d => option_map (map (fun x : Qc => this x)) (find (S2L "X") (v_vars d)) =
      Some (map (fun x : F exactly => this (x : Qc)) (qv [Some 4; Some 8; Some 24; None]))
  | _ => False
  end.
Proof.
  split; [is_regular 1|]. split; [is_regular 4|]. split; [|split; [is_between 1|]].
  - apply (covered_ord 4 (v_smp qtrs) (pd 2001 1 "Y") 1); [eapply (smpl_ok _ _ _ 4); [constructor|reflexivity|reflexivity|is_valid|is_valid|cbn; lia]|lia|constructor|].
    split; [is_valid|split; [constructor|cbn; lia]].
  - split; [reflexivity|]. split; [intros nb H; inversion H; cbn; lia|vm_compute; reflexivity].
Qed.

(** The source of C61_placement_refuted comes back one quarter earlier. *)
Theorem C63_placement_refuted : exists (from ws low : vdb double) p x,
  regular double from /\ regular double ws /\ regular double low /\ per (s_start (v_smp low)) = per (s_start (v_smp from)) /\
  sub_periods (per (s_start (v_smp from))) 4 /\ sub_periods (per (s_start (v_smp ws))) (3 * 4) /\
  fits (per (s_start (v_smp ws))) (v_smp from) /\ begins 3 (v_smp ws) /\ covered 3 (v_smp ws) p /\ in_sample double from p /\ in_sample double low p /\
  value double from (S2L "X") p = Some x /\ num double x = true /\
  exists low', (do ws' <- ws_ltoh double LTOH_STEP LTOH_STOCK [S2L "X"] (Some from) (Some ws);
                ws_htol double HTOL_LAST [S2L "X"] (Some ws') (Some low)) = Ok low' /\ value double low' (S2L "X") p <> Some x /\
    find (S2L "X") (v_vars low') = Some (map d_val [Some 2; Some 3; Some 4; None]).
Proof.
  exists quarterly2, monthly, (base (smpl (pd 2000 1 "Q") (pd 2000 4 "Q")) []), (pd 2000 2 "Q"), (d_val (Some 2)).
  split; [is_regular 4|]. split; [is_regular 12|]. split; [is_regular 4|]. split; [reflexivity|]. split; [constructor|]. split; [constructor|].
  split; [intros nb H; inversion H; cbn; lia|].
  split; [exists (pd 2000 1 "Q"); split; [is_valid|exists 4; cbn; repeat split; try constructor; lia]|].
  split; [apply (covered_ord 3 (v_smp monthly) (pd 2000 2 "Q") 4); [eapply (smpl_ok _ _ _ 12); [constructor|reflexivity|reflexivity|is_valid|is_valid|cbn; lia]|lia|constructor|];
    split; [is_valid|split; [constructor|cbn; lia]]|].
  split; [is_between 4|]. split; [is_between 4|]. split; [vm_compute; reflexivity|]. split; [vm_compute; reflexivity|].
  apply ex_ok. vm_compute. split; [discriminate|reflexivity].
Qed.
Print Assumptions C63_placement_refuted.

(** * C64: wrong requests are reported *)
(** The part that holds: samples without a common period. *)
Theorem C64_disjoint_partial : forall A meth asked (from ws : vdb A) m wn p0, asked <> [] -> regular A from -> regular A ws ->
  sub_periods (per (s_start (v_smp ws))) wn -> sub_periods (per (s_start (v_smp from))) (m * wn) -> 1 < m ->
  (wn = 1 \/ begins m (v_smp from)) -> covered m (v_smp from) p0 ->
  (forall p, in_sample A ws p -> year p < year (s_start (v_smp from)) \/ year (s_end (v_smp from)) < year p) ->
  ws_htol A meth asked (Some from) (Some ws) = Throw.
Proof.
  intros A meth asked from ws m wn p0 Na Rf Rw Hw Hf Hm D C H.
  destruct (htol_defined A meth from (v_smp ws) m wn Rf Hw Hf Hm D p0 C) as (to & E & It).
  destruct (htol_values A meth from (v_smp ws) m wn Rf Hw Hf Hm D to E) as (Rt & Pt & _).
  apply (command_disjoint A (htol A meth) asked from ws to); auto. intros q Vq [I1 I2]. specialize (H q I1).
  destruct (htol_years A meth from (v_smp ws) m wn Rf Hw Hf Hm D to E q I2). lia.
Qed.
Print Assumptions C64_disjoint_partial.
Definition late := base (smpl (pd 2010 1 "Y") (pd 2011 1 "Y")) [("X"%string, ints [0; 0])].
Example C64_ex : regular double late /\ covered 12 (v_smp months) (pd 2001 1 "Y") /\
  (forall p, in_sample double late p -> year p < year (s_start (v_smp months)) \/ year (s_end (v_smp months)) < year p) /\
  ws_htol double HTOL_SUM [S2L "X"] (Some months) (Some late) = Throw.
Proof.
  split; [is_regular 1|]. split; [apply C59_ex|]. split; [|vm_cast_no_check (@eq_refl (res (vdb double)) Throw)].
  intros p Hp. apply (between_ord (v_smp late) 1) in Hp; [|eapply (smpl_ok _ _ _ 1); [constructor|reflexivity|reflexivity|is_valid|is_valid|cbn; lia]|constructor].
  destruct Hp as (V & E & B). pose proof (valid_inv p 1 V ltac:(rewrite E; constructor)). right. unfold ord in B.
  change (year (s_end (v_smp months))) with 2002. change (year (s_start (v_smp late))) with 2010 in B. change (M_Time.step (s_start (v_smp late))) with 1 in B. lia.
Qed.
(** Instead of an error, a null pointer is used: when no variable is named or the file is not loaded, ... *)
Theorem C64_nothing_refuted : forall A hm lm ty asked (ws : option (vdb A)),
  (forall from, ws_htol A hm [] from ws = UB /\ ws_ltoh A lm ty [] from ws = UB) /\
  ws_htol A hm asked None ws = UB /\ ws_ltoh A lm ty asked None ws = UB.
Proof. intros. repeat split; destruct asked; reflexivity. Qed.
Print Assumptions C64_nothing_refuted.
(** ... when the periodicity of the source is not the expected one, or the workspace is monthly, ... *)
Theorem C64_periodicity_refuted : forall A hm lm ty asked (from ws : vdb A) fn wn,
  sub_periods (per (s_start (v_smp from))) fn -> sub_periods (per (s_start (v_smp ws))) wn ->
  (fn <= wn \/ wn = 12 -> ws_htol A hm asked (Some from) (Some ws) = UB) /\
  (wn <= fn -> ws_ltoh A lm ty asked (Some from) (Some ws) = UB).
Proof.
  intros A hm lm ty asked from ws fn wn Hf Hw. pose proof (sub_pos _ _ Hw) as Pw. split; intros H; unfold ws_htol, ws_ltoh, command; destruct asked; auto.
  - unfold htol, htol_smpl. rewrite (sub_nb _ _ Hf), (sub_nb _ _ Hw). cbn [rbind].
    destruct (Z.leb_spec wn 0); [lia|]. destruct (Z.eqb_spec wn 12); [reflexivity|]. destruct (Z.leb_spec fn wn); [reflexivity|lia].
  - unfold ltoh, ltoh_smpl. rewrite (sub_nb _ _ Hf), (sub_nb _ _ Hw). cbn [rbind].
    destruct (Z.leb_spec wn 0); [lia|]. destruct (Z.leb_spec wn fn); [reflexivity|lia].
Qed.
Print Assumptions C64_periodicity_refuted.
(** ... and when the source has no complete period: eleven months of one year to a yearly workspace. *)
Theorem C64_short_refuted : regular double months2 /\ regular double years /\ ws_htol double HTOL_SUM [S2L "X"] (Some months2) (Some years) = UB.
Proof. split; [is_regular 12|]. split; [is_regular 1|is_ub]. Qed.
Print Assumptions C64_short_refuted.

(** * C65: what the conversions do not change *)
(** The sample and the variables that are not in the source. *)
Theorem C65_other_variables : forall A (from ws ws' : vdb A) asked,
  (forall meth, ws_htol A meth asked (Some from) (Some ws) = Ok ws' ->
     v_smp ws' = v_smp ws /\ forall n, ~ has A from n -> find n (v_vars ws') = find n (v_vars ws)) /\
  (forall meth ty, ws_ltoh A meth ty asked (Some from) (Some ws) = Ok ws' ->
     v_smp ws' = v_smp ws /\ forall n, ~ has A from n -> find n (v_vars ws') = find n (v_vars ws)).
Proof.
  intros A from ws ws' asked. split; intros; eapply command_other; eauto; [apply htol_keys|apply ltoh_keys].
Qed.
Print Assumptions C65_other_variables.
(** The values of the variables of the source on the years that it does not have: every method, wherever the samples begin,
    whether or not the periodicities divide each other. *)
Theorem C65_other_years_htol : forall A meth asked (from ws ws' : vdb A) n p, regular A from -> regular A ws ->
  ws_htol A meth asked (Some from) (Some ws) = Ok ws' ->
  valid_period p -> year p < year (s_start (v_smp from)) \/ year (s_end (v_smp from)) < year p ->
  has A ws n -> value A ws' n p = value A ws n p.
Proof.
  intros A meth asked from ws ws' n p Rf Rw E Vp Y Hn. pose proof Rw as ((k & _ & (wn & Hw & _) & _) & _).
  refine (command_frame A (htol A meth) asked from ws ws' Rw _ E n p Vp Y Hn). intros to Et. eapply htol_regular; eauto.
Qed.
Print Assumptions C65_other_years_htol.
Theorem C65_other_years_ltoh : forall A meth ty asked (from ws ws' : vdb A) n p, regular A from -> regular A ws ->
  fits (per (s_start (v_smp ws))) (v_smp from) ->
  ws_ltoh A meth ty asked (Some from) (Some ws) = Ok ws' ->
  valid_period p -> year p < year (s_start (v_smp from)) \/ year (s_end (v_smp from)) < year p ->
  has A ws n -> value A ws' n p = value A ws n p.
Proof.
  intros A meth ty asked from ws ws' n p Rf Rw Fi E Vp Y Hn. pose proof Rw as ((k & _ & (wn & Hw & _) & _) & _).
  refine (command_frame A (ltoh A meth ty) asked from ws ws' Rw _ E n p Vp Y Hn). intros to Et. eapply ltoh_regular; eauto.
Qed.
Print Assumptions C65_other_years_ltoh.
(** The example of C59 has a variable A that is not in the source, and years 1999 and 2003 that are not. *)
Example C65_ex : year (pd 1999 1 "Y") < year (s_start (v_smp months)) /\ has double years (S2L "X") /\ ~ has double months (S2L "A").
Proof. split; [cbn; lia|]. split; [right; left; reflexivity|]. intros [H|[]]. discriminate. Qed.
