(** Lemmas on the cells of a table. *)
From Coq Require Import ZArith Ascii String List Bool Lia ZifyBool.
From Verif Require Import M_Base M_Time M_Names M_Lex M_Compile M_Bytes M_Exec M_Ascii M_Gsample M_Calc S_Time S_Gsample S_Calc L_Time L_Gsample.
Import ListNotations.
Open Scope Z_scope.

Lemma subs_nb p : valid_period p -> nb_per_year (per p) = Ok (subs (per p)).
Proof. intros V. destruct (valid_subs p V) as (H & _). apply sub_nb. exact H. Qed.
Lemma difference_place p q : valid_period p -> per q = per p -> difference p q = Ok (place q p).
Proof.
  intros V E. unfold difference. rewrite E, Ascii.eqb_refl, (subs_nb p V). cbn [negb rbind]. unfold place. f_equal. lia.
Qed.
Lemma place_further start p n : valid_period p -> place start (further p n) = place start p + n.
Proof.
  intros V. destruct (valid_subs p V) as (_ & B & P). unfold place, further. cbn [per year step].
  set (nb := subs (per p)) in *. set (o := year p * nb + (step p - 1) + n).
  pose proof (Z.div_mod o nb ltac:(lia)). unfold o in *. lia.
Qed.
Lemma place_between p q start : per p = per q -> place p q = place start q - place start p.
Proof. intros E. unfold place. rewrite E. lia. Qed.
Lemma further_valid p n : valid_period p -> valid_period (further p n) /\ per (further p n) = per p.
Proof. intros V. split; [apply shift_further; exact V|reflexivity]. Qed.

Lemma further_place p q : valid_period p -> valid_period q -> per q = per p -> further p (place p q) = q.
Proof.
  intros Vp Vq E. destruct (valid_subs q Vq) as (_ & Bq & _). unfold further, place. rewrite E in *. set (nb := subs (per p)) in *.
  replace (year p * nb + (step p - 1) + ((year q - year p) * nb + (step q - step p))) with (year q * nb + (step q - 1)) by lia.
  rewrite (Z.div_add_l (year q) nb (step q - 1)) by lia. rewrite (Z.div_small (step q - 1)) by lia.
  replace (year q * nb + (step q - 1)) with (step q - 1 + year q * nb) by lia. rewrite Z.mod_add, Z.mod_small by lia.
  destruct q as [y s c]. cbn in *. subst c. f_equal; lia.
Qed.
Lemma in_seqZ k : forall a z, a <= z < a + Z.of_nat k -> In z (seqZ a k).
Proof. induction k as [|k IH]; intros a z H; [lia|]. cbn [seqZ]. destruct (Z.eq_dec a z); [left; assumption|right; apply IH; lia]. Qed.
Lemma place_self p : place p p = 0.
Proof. unfold place. lia. Qed.
Lemma ends_between p q : valid_period p -> valid_period q -> per q = per p -> In p (between p q) /\ In q (between p q).
Proof.
  intros Vp Vq E. unfold between, before, distance.
  assert (O : place q p = - place p q) by (unfold place; rewrite E; lia).
  destruct (place p q <? 0) eqn:B; split; apply in_map_iff.
  - exists (place q p). split; [apply further_place; auto|apply in_seqZ; lia].
  - exists 0. split; [rewrite <- (place_self q); apply further_place; auto|apply in_seqZ; lia].
  - exists 0. split; [rewrite <- (place_self p); apply further_place; auto|apply in_seqZ; lia].
  - exists (place p q). split; [apply further_place; auto|apply in_seqZ; lia].
Qed.

Section Calc.
Context (A : arith) (real_bytes : str -> list Z).
Notation F := (F A). Notation na := (na A).

Lemma linked E text x : compiled real_bytes text x -> calculable A real_bytes E text ->
  exists x', link_to A (Some E) x = Ok (Some x') /\ forall t, L_exec A E (x_names x') t (x_code x') = evaluate A E real_bytes text t.
Proof.
  intros (atoms & code & C & En & ->) K. cbn [link_to x_names x_code].
  assert (H : exists c', link_names E (names_of atoms) = true /\ link_sample (s_start (smp E)) code = Ok c').
  { destruct (K 0) as (v & Ev). unfold evaluate in Ev. rewrite C, En in Ev. cbn [rbind] in Ev.
    destruct (link_names E (names_of atoms)); [|discriminate]. destruct (link_sample _ code) as [c'| |]; try discriminate. exists c'. auto. }
  destruct H as (c' & Ln & Ls). rewrite Ln, Ls. cbn [rbind]. eexists. split; [reflexivity|]. intros t. cbn [x_names x_code].
  unfold evaluate. rewrite C, En. cbn [rbind]. rewrite Ln, Ls. reflexivity.
Qed.

Section File.
Context (E : env A) (text : str) (div : option str) (x : clec) (d : option clec).
Hypothesis Kx : calculable A real_bytes E text.
Hypothesis Kd : match div with Some d => calculable A real_bytes E d | None => True end.
Hypothesis Lx : forall t, L_exec A E (x_names x) t (x_code x) = evaluate A E real_bytes text t.
Hypothesis Ld : div_ok (fun text x => forall t, L_exec A E (x_names x) t (x_code x) = evaluate A E real_bytes text t) div d.
Notation start := (s_start (smp E)).
Notation w := (worth A real_bytes E text div).
Hypothesis N1 : num A (ofZ A 1) = true.
Hypothesis Z1 : M_Exec.eq A (ofZ A 1) (ofZ A 0) = false.

Lemma value_ok p : value A E x d (place start p) = Ok (w p).
Proof.
  unfold value, worth, of_formula. rewrite Lx. destruct (Kx (place start p)) as (v & ->). cbn [rbind].
  destruct (num A v) eqn:Nv; cbn [negb]; [|destruct div; reflexivity].
  destruct div as [dt|], d as [dx|]; cbn [div_ok] in Ld; try contradiction.
  - rewrite Ld. destruct (Kd (place start p)) as (dv & ->). cbn [rbind].
    destruct (num A dv); cbn [negb orb]; [|reflexivity]. destruct (M_Exec.eq A dv (ofZ A 0)); reflexivity.
  - cbn [rbind]. rewrite N1, Z1. reflexivity.
Qed.
Lemma total_ok p : valid_period p -> forall k a acc,
  total A E x d (seqZ (place start p + a) k) acc = Ok (sum_of A w (map (further p) (seqZ a k)) acc).
Proof.
  intros V. induction k as [|k IH]; intros a acc; [reflexivity|]. cbn [seqZ total map sum_of].
  rewrite <- (place_further start p a V), value_ok. cbn [rbind]. destruct (w (further p a)) as [v|]; [|reflexivity].
  rewrite (place_further start p a V). replace (place start p + a + 1) with (place start p + (a + 1)) by lia. apply IH.
Qed.
Lemma sum_none l p : In p l -> w p = None -> forall acc, sum_of A w l acc = None.
Proof.
  induction l as [|q l IH]; intros I H acc; [destruct I|]. cbn [sum_of]. destruct I as [-> | I]; [rewrite H; reflexivity|].
  destruct (w q); [apply IH; assumption|reflexivity].
Qed.
Definition proper' (c : col) : Prop :=
  valid_period (per0 c) /\ (opy c <> NOP -> valid_period (per1 c) /\ per (per1 c) = per (per0 c)).
Lemma on_file_ok c : proper' c -> per start = per (per0 c) ->
  on_file A c E x d = Ok (on_two A w (opy c) (per0 c) (match opy c with NOP => per0 c | _ => per1 c end)).
Proof.
  intros (V0 & V1) Ps. unfold on_file. rewrite (difference_place (per0 c) start V0 Ps). cbn [rbind]. rewrite value_ok. cbn [rbind].
  destruct (match opy c with NOP => true | _ => false end) eqn:En.
  { destruct (opy c); try discriminate. cbn [on_two]. destruct (w (per0 c)); reflexivity. }
  destruct (V1 ltac:(intros H; rewrite H in En; discriminate)) as (V1' & Pe).
  assert (D1 : difference (per1 c) start = Ok (place start (per1 c))) by (apply difference_place; [exact V1'|congruence]).
  pose proof (place_between (per0 c) (per1 c) start (Logic.eq_sym Pe)) as Pb.
  set (t0 := place start (per0 c)) in *. set (t1 := place start (per1 c)) in *.
  assert (Dn : Z.max t0 t1 - Z.min t0 t1 = distance (per0 c) (per1 c)) by (unfold distance; lia).
  assert (Tt : total A E x d (seqZ (Z.min t0 t1) (Z.to_nat (Z.max t0 t1 - Z.min t0 t1 + 1))) (ofZ A 0)
         = Ok (sum_of A w (between (per0 c) (per1 c)) (ofZ A 0))).
  { unfold between, before. rewrite Dn. destruct (place (per0 c) (per1 c) <? 0) eqn:B;
    [replace (Z.min t0 t1) with (t1 + 0) by lia; apply total_ok; exact V1'|replace (Z.min t0 t1) with (t0 + 0) by lia; apply total_ok; exact V0]. }
  destruct (ends_between (per0 c) (per1 c) V0 V1' Pe) as (I0 & I1).
  assert (X : match w (per0 c) with None => Ok None | Some v0 =>
     do t <- difference (per1 c) start; do o1 <- value A E x d t;
     match o1 with None => Ok None | Some v1 => on_periods A (opy c) (Z.max t0 t - Z.min t0 t) v0 v1
        (total A E x d (seqZ (Z.min t0 t) (Z.to_nat (Z.max t0 t - Z.min t0 t + 1))) (ofZ A 0)) end end
     = Ok (on_two A w (opy c) (per0 c) (per1 c))).
  { rewrite D1. cbn [rbind]. rewrite (value_ok (per1 c) : value A E x d t1 = _). cbn [rbind]. rewrite Tt, Dn.
    destruct (w (per0 c)) as [v0|] eqn:W0; [destruct (w (per1 c)) as [v1|] eqn:W1|].
    - destruct (opy c); cbn [on_two on_periods]; rewrite ?W0, ?W1; cbn [lift quotient option_map rbind]; try reflexivity;
        try (destruct (M_Exec.eq A v1 (ofZ A 0)); reflexivity).
      destruct (distance (per0 c) (per1 c) =? 0); [reflexivity|]. unfold growth. destruct (M_Exec.eq A v1 (ofZ A 0)); try reflexivity.
        cbn [option_map]. destruct (lt A _ _); reflexivity.
    - destruct (opy c); try discriminate; cbn [on_two]; rewrite ?W0, ?W1; cbn [lift quotient option_map]; rewrite ?(sum_none _ _ I1 W1); try reflexivity.
      destruct (_ =? _); reflexivity.
    - destruct (opy c); try discriminate; cbn [on_two]; rewrite ?W0; cbn [lift quotient option_map]; rewrite ?(sum_none _ _ I0 W0); try reflexivity.
      destruct (_ =? _); reflexivity. }
  destruct (opy c); try discriminate; exact X.
Qed.
End File.

Hypothesis N1 : num A (ofZ A 1) = true.
Hypothesis Z1 : M_Exec.eq A (ofZ A 1) (ofZ A 0) = false.
Notation W := (cell_on A real_bytes).
Lemma file_turn_ok files c text div x d f : compiled real_bytes text x -> div_ok (compiled real_bytes) div d -> proper' c ->
  serves A real_bytes files (per0 c) text div f ->
  file_turn A files c f x d = Ok (match on_two A (W files text div f) (opy c) (per0 c) (match opy c with NOP => per0 c | _ => per1 c end) with
    Some v => Val A v | None => Err A end).
Proof.
  intros Cx Cd P (E & Ef & Ps & Kx & Kd). unfold file_turn.
  assert (B : 1 <= f <= 5 /\ file_at A files f = Ok (Some E)).
  { unfold file_of in Ef. unfold file_at. destruct ((1 <=? f) && (f <=? 5)) eqn:Bf; [|discriminate]. split; [lia|congruence]. }
  destruct B as (B & Ea). replace (f =? 0) with false by lia. rewrite Ea. cbn [rbind].
  destruct (linked E text x Cx Kx) as (x' & Lx & Xx). rewrite Lx. cbn [rbind].
  assert (Hd : exists d', (match d with None => Ok (Some None) | Some d => do l <- link_to A (Some E) d; Ok (option_map Some l) end) = Ok (Some d')
    /\ div_ok (fun text x => forall t, L_exec A E (x_names x) t (x_code x) = evaluate A E real_bytes text t) div d').
  { destruct div as [dt|], d as [dx|]; cbn [div_ok] in Cd; try contradiction.
    - destruct (linked E dt dx Cd Kd) as (dx' & Ld & Xd). exists (Some dx'). rewrite Ld. split; [reflexivity|exact Xd].
    - exists None. split; [reflexivity|exact I]. }
  destruct Hd as (d' & -> & Ld). cbn [rbind].
  rewrite (on_file_ok E text div x' d' Kx Kd Xx Ld N1 Z1 c P Ps). cbn [rbind].
  unfold cell_on. rewrite Ef. reflexivity.
Qed.
Lemma COL_calc_ok files c text div x d : compiled real_bytes text x -> div_ok (compiled real_bytes) div d -> proper (view c) ->
  served A real_bytes files text div (view c) ->
  COL_calc A files c x d = Ok (Some (shown A na (col_value A (W files text div) (view c)))).
Proof.
  intros Cx Cd P0 Sv. unfold COL_calc, served in *.
  assert (P : proper' c).
  { destruct P0 as (V0 & V1). cbn [view v_0 v_1 v_op] in *. split; [exact V0|]. intros N. destruct (opy c); try congruence; exact V1. }
  cbn [view v_files v_0] in Sv.
  assert (V1 : match v_1 (view c) with Some q => q | None => v_0 (view c) end = match opy c with NOP => per0 c | _ => per1 c end)
    by (cbn [view v_1 v_0]; destruct (opy c); reflexivity).
  unfold col_value. rewrite V1. cbn [view v_files v_op v_0].
  destruct (opf c) as [o|] eqn:Eo; [|contradiction]. cbv iota in Sv.
  assert (K0 : serves A real_bytes files (per0 c) text div (fnb0 c)) by (destruct o; try contradiction; apply Sv).
  rewrite (file_turn_ok files c text div x d (fnb0 c) Cx Cd P K0). cbn [rbind].
  set (on f := on_two A (W files text div f) (opy c) (per0 c) (match opy c with NOP => per0 c | _ => per1 c end)) in *.
  change (on_two A (W files text div (fnb0 c)) (opy c) (per0 c) (match opy c with NOP => per0 c | _ => per1 c end)) with (on (fnb0 c)).
  destruct (match o with NOP => true | _ => false end) eqn:On.
  - destruct o; try discriminate. destruct Sv as (_ & F1z). destruct (on (fnb0 c)) as [v0|]; [|reflexivity].
    rewrite F1z. unfold file_turn. cbn [Z.eqb rbind on_files]. reflexivity.
  - assert (K1 : serves A real_bytes files (per0 c) text div (fnb1 c)) by (destruct o; try contradiction; try discriminate; apply Sv).
    pose proof (file_turn_ok files c text div x d (fnb1 c) Cx Cd P K1) as T1.
    change (on_two A (W files text div (fnb1 c)) (opy c) (per0 c) (match opy c with NOP => per0 c | _ => per1 c end)) with (on (fnb1 c)).
    change (on_two A (W files text div (fnb1 c)) (opy c) (per0 c) (match opy c with NOP => per0 c | _ => per1 c end)) with (on (fnb1 c)) in T1.
    destruct (on (fnb0 c)) as [v0|]; [|destruct o; try contradiction; try discriminate; reflexivity].
    rewrite T1. cbn [rbind]. destruct (on (fnb1 c)) as [v1|]; [|destruct o; try contradiction; try discriminate; reflexivity].
    cbn [rbind]. destruct o; try contradiction; try discriminate; cbn [on_files rbind lift quotient option_map shown]; try reflexivity;
      (destruct (M_Exec.eq A v1 (ofZ A 0)); reflexivity).
Qed.

(** * A line *)

Lemma nth_set_eq {X} (l : list X) : forall i x y, (i < length l)%nat -> nth i (set_nth l i x) y = x.
Proof. induction l as [|a l IH]; intros i x y H; cbn [length] in H; [lia|]. destruct i; [reflexivity|]. cbn. apply IH. lia. Qed.
Lemma nth_set_neq {X} (l : list X) : forall i j x y, i <> j -> nth j (set_nth l i x) y = nth j l y.
Proof. induction l as [|a l IH]; intros i j x y H; [reflexivity|]. destruct i, j; try reflexivity; [congruence|]. cbn. apply IH. congruence. Qed.
Lemma set_length {X} (l : list X) : forall i x, length (set_nth l i x) = length l.
Proof. induction l as [|a l IH]; intros i x; [reflexivity|]. destruct i; cbn; [reflexivity|]. f_equal. apply IH. Qed.

Lemma resized (cols : list col) dim : forall j d, (d < dim)%nat ->
  nth_error (flat_map (fun c => repeat c dim) cols) (d + j * dim) = nth_error cols j.
Proof.
  induction cols as [|c cols IH]; intros j d H.
  - cbn. destruct (d + j * dim)%nat, j; reflexivity.
  - cbn [flat_map]. destruct j as [|j].
    + rewrite nth_error_app1 by (rewrite repeat_length; lia). rewrite Nat.add_0_r. cbn [nth_error].
      rewrite nth_error_repeat by lia. reflexivity.
    + rewrite nth_error_app2 by (rewrite repeat_length; lia). rewrite repeat_length.
      replace (d + S j * dim - dim)%nat with (d + j * dim)%nat by lia. apply IH. exact H.
Qed.
Lemma resized_length (cols : list col) dim : length (flat_map (fun c => repeat c dim) cols) = (length cols * dim)%nat.
Proof. induction cols as [|c cols IH]; [reflexivity|]. cbn [flat_map length]. rewrite app_length, repeat_length, IH. lia. Qed.
Lemma index_inj dim d d' j j' : (d < dim)%nat -> (d' < dim)%nat -> (d + j * dim = d' + j' * dim)%nat -> d = d' /\ j = j'.
Proof.
  intros H H' E. assert (j = j') by (destruct (lt_eq_lt_dec j j') as [[L|L]|L]; [exfalso; nia|exact L|exfalso; nia]). subst. split; lia.
Qed.
Section Line.
Context (files : list (option (env A))) (cols : list col) (dim : nat).
Lemma exec_cell_ok d x dv V : (d < dim)%nat -> forall k a vals, length vals = length cols ->
  (forall j, (a <= j < a + k)%nat -> exists c, nth_error cols (d + j * dim) = Some c /\ COL_calc A files c x dv = Ok (Some (V j))) ->
  exists vals', exec_cell A files cols dim d x dv (seq a k) vals = Ok (true, vals') /\ length vals' = length cols
    /\ forall d' j z, (d' < dim)%nat -> nth (d' + j * dim) vals' z =
       if Nat.eqb d' d && (Nat.leb a j && Nat.ltb j (a + k)) then V j else nth (d' + j * dim) vals z.
Proof.
  intros Hd. induction k as [|k IH]; intros a vals L H.
  - exists vals. cbn [seq exec_cell]. split; [reflexivity|]. split; [exact L|]. intros d' j z _.
    replace (Nat.leb a j && Nat.ltb j (a + 0))%bool with false by (symmetry; apply andb_false_iff; destruct (Nat.leb_spec a j); [right; apply Nat.ltb_ge; lia|left; reflexivity]).
    rewrite andb_false_r. reflexivity.
  - cbn [seq exec_cell]. destruct (H a ltac:(lia)) as (c & Ec & Cc). rewrite Ec, Cc. cbn [rbind].
    assert (Li : (d + a * dim < length vals)%nat) by (rewrite L; apply nth_error_Some; rewrite Ec; discriminate).
    destruct (IH (S a) (set_nth vals (d + a * dim) (V a)) ltac:(rewrite set_length; exact L) ltac:(intros j Hj; apply H; lia)) as (vals' & E & L' & N).
    exists vals'. split; [exact E|]. split; [exact L'|]. intros d' j z Hd'. rewrite (N d' j z Hd').
    destruct (Nat.eqb_spec d' d) as [->|Nd]; cbn [andb].
    + destruct (Nat.eq_dec j a) as [->|Nj].
      * replace (Nat.leb (S a) a) with false by (symmetry; apply Nat.leb_gt; lia). cbn [andb].
        rewrite Nat.leb_refl. replace (Nat.ltb a (a + S k)) with true by (symmetry; apply Nat.ltb_lt; lia). cbn [andb].
        apply nth_set_eq. exact Li.
      * replace (Nat.leb (S a) j) with (Nat.leb a j) by (destruct (Nat.leb_spec a j), (Nat.leb_spec (S a) j); lia || reflexivity).
        replace (S a + k)%nat with (a + S k)%nat by lia. destruct (Nat.leb a j && Nat.ltb j (a + S k)); [reflexivity|].
        apply nth_set_neq. intros X. destruct (index_inj dim d d a j Hd Hd X). congruence.
    + apply nth_set_neq. intros X. destruct (index_inj dim d d' a j Hd Hd' X). congruence.
Qed.
Lemma exec_cells_ok k V : length cols = (k * dim)%nat -> (0 < dim)%nat -> forall cells d vals, length vals = length cols -> (d + length cells = dim)%nat ->
  (forall i x dv j, nth_error cells i = Some (Some (x, dv)) -> (j < k)%nat ->
     exists c, nth_error cols (d + i + j * dim) = Some c /\ COL_calc A files c x dv = Ok (Some (V j (d + i)%nat))) ->
  exists vals', exec_cells A files cols dim d cells vals = Ok (true, vals') /\ length vals' = length cols
    /\ (forall d' j z, (d' < dim)%nat -> (j < k)%nat -> nth (d' + j * dim) vals' z =
       match (if Nat.ltb d' d then None else nth_error cells (d' - d)) with Some (Some _) => V j d' | _ => nth (d' + j * dim) vals z end).
Proof.
  intros Lc D0. induction cells as [|o cells IH]; intros d vals L Ld H.
  - exists vals. cbn [exec_cells]. split; [reflexivity|]. split; [exact L|]. intros d' j z Hd' Hj.
    destruct (Nat.ltb d' d); [reflexivity|]. destruct (d' - d)%nat; reflexivity.
  - cbn [length] in Ld. cbn [exec_cells].
    destruct o as [[x dv]|].
    + replace (length cols / dim)%nat with k by (rewrite Lc, Nat.div_mul by lia; reflexivity).
      destruct (exec_cell_ok d x dv (fun j => V j d) ltac:(lia) k 0%nat vals L) as (v1 & E1 & L1 & N1').
      { intros j Hj. destruct (H 0%nat x dv j eq_refl ltac:(lia)) as (c & Ec & Cc). rewrite Nat.add_0_r in *. exists c. auto. }
      rewrite E1. cbn [rbind fst snd].
      destruct (IH (S d) v1 L1 ltac:(lia)) as (v2 & E2 & L2 & N2).
      { intros i x' dv' j Hi Hj. destruct (H (S i) x' dv' j Hi Hj) as (c & Ec & Cc). replace (d + S i)%nat with (S d + i)%nat in * by lia. exists c. auto. }
      exists v2. split; [exact E2|]. split; [exact L2|]. intros d' j z Hd' Hj. rewrite (N2 d' j z Hd' Hj), (N1' d' j z Hd').
      destruct (Nat.ltb_spec d' (S d)), (Nat.ltb_spec d' d); try lia.
      * destruct (Nat.eqb_spec d' d); [lia|]. reflexivity.
      * assert (d' = d) by lia. subst d'. rewrite Nat.eqb_refl, Nat.sub_diag. cbn [nth_error Nat.leb andb].
        replace (Nat.ltb j (0 + k)) with true by (symmetry; apply Nat.ltb_lt; lia). reflexivity.
      * replace (d' - d)%nat with (S (d' - S d)) by lia. cbn [nth_error]. destruct (nth_error cells (d' - S d)) as [[|]|]; try reflexivity;
          (destruct (Nat.eqb_spec d' d); [lia|]; reflexivity).
    + destruct (IH (S d) vals L ltac:(lia)) as (v2 & E2 & L2 & N2).
      { intros i x' dv' j Hi Hj. destruct (H (S i) x' dv' j Hi Hj) as (c & Ec & Cc). replace (d + S i)%nat with (S d + i)%nat in * by lia. exists c. auto. }
      exists v2. split; [exact E2|]. split; [exact L2|]. intros d' j z Hd' Hj. rewrite (N2 d' j z Hd' Hj).
      destruct (Nat.ltb_spec d' (S d)), (Nat.ltb_spec d' d); try lia; try reflexivity.
      * assert (d' = d) by lia. subst d'. rewrite Nat.sub_diag. reflexivity.
      * replace (d' - d)%nat with (S (d' - S d)) by lia. reflexivity.
Qed.
End Line.
Lemma COL_exec_ok files cols cells r V : cells <> [] ->
  (forall d x dv j c, nth_error cells d = Some (Some (x, dv)) -> nth_error cols j = Some c -> COL_calc A files c x dv = Ok (Some (V j d))) ->
  exists vals, COL_exec A files (fst (COL_resize (length cells) r cols)) cells = Ok (true, vals)
    /\ length vals = (length cols * length cells)%nat
    /\ forall j d z, (j < length cols)%nat -> (d < length cells)%nat ->
       nth (d + j * length cells) vals z = match nth_error cells d with Some (Some _) => V j d | _ => ofZ A 0 end.
Proof.
  intros Ne H. unfold COL_resize. cbn [fst]. set (dim := length cells). assert (D0 : (0 < dim)%nat) by (unfold dim; destruct cells; [congruence|cbn; lia]).
  set (big := flat_map (fun c => repeat c dim) cols). pose proof (resized_length cols dim) as Lb. fold big in Lb.
  unfold COL_exec. fold dim.
  destruct (exec_cells_ok files big dim (length cols) V Lb D0 cells 0%nat (map (fun _ => ofZ A 0) big) (map_length _ _) eq_refl) as (vals & E & L & N).
  - intros i x dv j Hi Hj. cbn [Nat.add]. destruct (nth_error cols j) as [c|] eqn:Ec; [|apply nth_error_None in Ec; lia].
    exists c. split; [|exact (H i x dv j c Hi Ec)].
    unfold big. rewrite resized; [exact Ec|]. unfold dim. apply nth_error_Some. rewrite Hi. discriminate.
  - exists vals. split; [exact E|]. split; [rewrite L; exact Lb|]. intros j d z Hj Hd. rewrite (N d j z Hd Hj).
    cbn [Nat.ltb Nat.leb]. rewrite Nat.sub_0_r.
    assert (Z0 : nth (d + j * dim) (map (fun _ => ofZ A 0) big) z = ofZ A 0).
    { rewrite (nth_indep _ z (ofZ A 0)) by (rewrite map_length, Lb; nia). change (ofZ A 0) with ((fun _ : col => ofZ A 0) (mkC NOP period0 period0 None 0 0)) at 2.
      rewrite map_nth. reflexivity. }
    rewrite Z0. reflexivity.
Qed.
End Calc.
