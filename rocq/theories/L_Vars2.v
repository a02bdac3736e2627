(** Overlap of samples, and the loop of [set_sample]. *)
From Coq Require Import ZArith Ascii String List Bool Lia.
From Verif Require Import M_Base M_Time M_Names M_Lex M_Compile M_Bytes M_Exec M_Kdb M_Vars L_Kdb2 S_Kdb S_Vars L_Vars.
Import ListNotations.
Open Scope Z_scope.
Local Arguments Z.add : simpl never.
Local Arguments Z.sub : simpl never.
Local Arguments Z.mul : simpl never.

Definition idx (nb : Z) (p : period) : Z := nb * year p + M_Time.step p.
Lemma difference_idx p q nb : per p = per q -> nb_per_year (per p) = Ok nb -> difference p q = Ok (idx nb p - idx nb q).
Proof.
  intros E H. unfold difference. rewrite E in *. destruct (Ascii.eqb_spec (per q) (per q)); [|congruence].
  cbn [negb]. rewrite H. cbn [rbind]. f_equal. unfold idx. ring.
Qed.
Lemma difference_inv p q z : difference p q = Ok z -> per p = per q /\ exists nb, nb_per_year (per p) = Ok nb /\ z = idx nb p - idx nb q.
Proof.
  unfold difference. destruct (Ascii.eqb_spec (per p) (per q)) as [E|]; [|discriminate]. cbn [negb].
  destruct (nb_per_year (per p)) as [nb| |] eqn:H; cbn [rbind]; try discriminate. intros X. split; auto. exists nb. split; auto.
  inversion X. unfold idx. ring.
Qed.
Lemma nb_per_year_not_ub c : nb_per_year c <> UB.
Proof. unfold nb_per_year. repeat match goal with |- (if ?b then _ else _) <> _ => destruct b; [discriminate|] end. discriminate. Qed.
Lemma nb_per_year_pos c nb : nb_per_year c = Ok nb -> 1 <= nb.
Proof.
  unfold nb_per_year. repeat match goal with |- (if ?b then _ else _) = _ -> _ => destruct b; [intros H; (discriminate || (injection H as <-; lia))|] end.
  discriminate.
Qed.
Lemma difference_not_ub p q : difference p q <> UB.
Proof.
  unfold difference. destruct (negb _); [discriminate|]. pose proof (nb_per_year_not_ub (per p)).
  destruct (nb_per_year (per p)); cbn; congruence.
Qed.

(** The sample as an interval of numbers. *)
Lemma real_idx s : real_sample s -> exists nb, nb_per_year (per (s_start s)) = Ok nb /\ per (s_end s) = per (s_start s) /\
  0 < s_nb s <= 32767 /\ idx nb (s_end s) = idx nb (s_start s) + s_nb s - 1.
Proof.
  intros [H D]. apply difference_inv in D. destruct D as (E & nb & N & D). exists nb. rewrite E in N. repeat split; auto; lia.
Qed.
Lemma position_idx s nb q : nb_per_year (per (s_start s)) = Ok nb ->
  M_Time.position s q = if Ascii.eqb (per q) (per (s_start s)) then
      let t := idx nb q - idx nb (s_start s) in if (t <? 0) || (s_nb s <=? t) then Throw else Ok t
    else Throw.
Proof.
  intros H. unfold M_Time.position. destruct (Ascii.eqb_spec (per q) (per (s_start s))) as [E|N].
  - rewrite (difference_idx q (s_start s) nb E); [reflexivity|congruence].
  - unfold difference. destruct (Ascii.eqb_spec (per q) (per (s_start s))); [contradiction|]. reflexivity.
Qed.
Lemma to_short_id z : -32768 <= z <= 32767 -> to_short z = z.
Proof. intros H. unfold to_short. rewrite Z.mod_small; lia. Qed.

Definition ostart (nb : Z) (o s : sample) : Z := Z.max (idx nb (s_start o)) (idx nb (s_start s)).
Definition oend (nb : Z) (o s : sample) : Z := Z.min (idx nb (s_end o)) (idx nb (s_end s)).
Lemma overlap_cases o s : real_sample o -> real_sample s ->
  (per (s_start o) <> per (s_start s) /\ overlap o s = Throw) \/
  (per (s_start o) = per (s_start s) /\ exists nb, nb_per_year (per (s_start s)) = Ok nb /\
    ((oend nb o s < ostart nb o s /\ overlap o s = Throw) \/
     (ostart nb o s <= oend nb o s /\
      overlap o s = Ok (oend nb o s - ostart nb o s + 1, ostart nb o s - idx nb (s_start o), ostart nb o s - idx nb (s_start s))))).
Proof.
  intros Ro Rs. destruct (real_idx _ Ro) as (nb' & No & Eo & Bo & Io), (real_idx _ Rs) as (nb & Ns & Es & Bs & Is).
  unfold overlap, intersection. destruct (Ascii.eqb_spec (per (s_start o)) (per (s_start s))) as [E|N]; [|left; auto].
  right. split; auto. exists nb. split; auto. cbn [negb]. assert (nb' = nb) as -> by congruence.
  rewrite (difference_idx (s_start o) (s_start s) nb) by congruence. cbn [rbind].
  rewrite (difference_idx (s_end o) (s_end s) nb) by congruence. cbn [rbind].
  set (st := if _ <? 0 then s_start s else s_start o). set (en := if 0 <? _ then s_end s else s_end o).
  assert (Pst : per st = per (s_start s)) by (unfold st; destruct (_ <? 0); auto).
  assert (Pen : per en = per (s_start s)) by (unfold en; destruct (0 <? _); congruence).
  assert (Ist : idx nb st = ostart nb o s).
  { unfold st, ostart. destruct (Z.ltb_spec (idx nb (s_start o) - idx nb (s_start s)) 0); lia. }
  assert (Ien : idx nb en = oend nb o s).
  { unfold en, oend. destruct (Z.ltb_spec 0 (idx nb (s_end o) - idx nb (s_end s))); lia. }
  unfold make_sample. rewrite (difference_idx en st nb) by congruence. cbn [rbind]. rewrite Ist, Ien.
  destruct (Z.ltb_spec (oend nb o s - ostart nb o s) 0); cbn [rbind].
  - left. split; [lia|auto].
  - right. split; [lia|]. cbn [s_nb s_start]. rewrite to_short_id by (unfold oend, ostart in *; lia).
    destruct (Z.ltb_spec 0 (oend nb o s - ostart nb o s + 1)); [|lia].
    rewrite (difference_idx st (s_start o) nb) by congruence. cbn [rbind].
    rewrite (difference_idx st (s_start s) nb) by congruence. cbn [rbind]. rewrite Ist. reflexivity.
Qed.

(** The common periods: where they are in both samples. *)
Lemma overlap_spec o s n a b : real_sample o -> real_sample s -> overlap o s = Ok (n, a, b) ->
  0 < n /\ 0 <= a /\ 0 <= b /\ a + n <= s_nb o /\ b + n <= s_nb s /\
  forall q i, M_Time.position s q = Ok i ->
    (b <= i < b + n -> M_Time.position o q = Ok (i - b + a)) /\ (~ b <= i < b + n -> M_Time.position o q = Throw).
Proof.
  intros Ro Rs H. destruct (overlap_cases o s Ro Rs) as [[_ X]|(E & nb & Nb & [[_ X]|[Le X]])]; try congruence.
  rewrite X in H. injection H as <- <- <-.
  destruct (real_idx _ Ro) as (nb' & No & Eo & Bo & Io), (real_idx _ Rs) as (nb2 & Ns & Es & Bs & Is).
  assert (nb' = nb) as -> by congruence. assert (nb2 = nb) as -> by congruence. clear X.
  unfold oend, ostart in *. split; [lia|]. split; [lia|]. split; [lia|]. split; [lia|]. split; [lia|].
  intros q i Hq. rewrite (position_idx s nb) in Hq by auto. rewrite (position_idx o nb) by auto. rewrite E.
  destruct (Ascii.eqb (per q) (per (s_start s))); [|discriminate]. cbn zeta in *.
  destruct ((_ <? 0) || _) eqn:B in Hq; [discriminate|]. injection Hq as <-.
  apply orb_false_iff in B. destruct B as [B1 B2]. apply Z.ltb_ge in B1. apply Z.leb_gt in B2.
  split; intros R.
  - destruct (Z.ltb_spec (idx nb q - idx nb (s_start o)) 0); [lia|].
    destruct (Z.leb_spec (s_nb o) (idx nb q - idx nb (s_start o))); [lia|]. cbn [orb]. f_equal. lia.
  - destruct (Z.ltb_spec (idx nb q - idx nb (s_start o)) 0); [auto|].
    destruct (Z.leb_spec (s_nb o) (idx nb q - idx nb (s_start o))); [auto|]. lia.
Qed.
(** The overlap is refused exactly when there is no common period. *)
Lemma overlap_throw o s : real_sample o -> real_sample s ->
  (overlap o s = Throw <-> forall q i j, ~ (M_Time.position o q = Ok i /\ M_Time.position s q = Ok j)) /\ overlap o s <> UB.
Proof.
  intros Ro Rs. destruct (real_idx _ Ro) as (nb' & No & Eo & Bo & Io), (real_idx _ Rs) as (nb2 & Ns & Es & Bs & Is).
  destruct (overlap_cases o s Ro Rs) as [[E X]|(E & nb & Nb & C)].
  - split; [|congruence]. split; auto. intros _ q i j [H1 H2].
    rewrite (position_idx o nb') in H1 by auto. rewrite (position_idx s nb2) in H2 by auto.
    destruct (Ascii.eqb_spec (per q) (per (s_start s))); [|discriminate].
    destruct (Ascii.eqb_spec (per q) (per (s_start o))); [congruence|discriminate].
  - assert (nb' = nb) as -> by congruence. assert (nb2 = nb) as -> by congruence.
    destruct C as [[Lt X]|[Le X]]; rewrite X; (split; [|congruence]).
    + split; auto. intros _ q i j [H1 H2].
      rewrite (position_idx o nb) in H1 by auto. rewrite (position_idx s nb) in H2 by auto. rewrite E in H1.
      destruct (Ascii.eqb _ _); [|discriminate]. cbn zeta in *.
      destruct ((_ <? 0) || _) eqn:B1 in H1; [discriminate|]. destruct ((_ <? 0) || _) eqn:B2 in H2; [discriminate|].
      apply orb_false_iff in B1, B2. rewrite Z.ltb_ge, Z.leb_gt in *. unfold oend, ostart in *. lia.
    + split; [discriminate|]. intros H. exfalso.
      set (q := if idx nb (s_start o) <? idx nb (s_start s) then s_start s else s_start o).
      assert (Pq : per q = per (s_start s)) by (unfold q; destruct (_ <? _); auto).
      assert (Iq : idx nb q = ostart nb o s) by (unfold q, ostart; destruct (Z.ltb_spec (idx nb (s_start o)) (idx nb (s_start s))); lia).
      apply (H q (idx nb q - idx nb (s_start o)) (idx nb q - idx nb (s_start s))).
      rewrite (position_idx o nb), (position_idx s nb) by auto. rewrite E, Pq.
      rewrite Ascii.eqb_refl. cbn zeta. rewrite Iq. unfold oend, ostart in *.
      split; (destruct ((_ <? 0) || _) eqn:B; [|reflexivity]); apply orb_true_iff in B; rewrite Z.ltb_lt, Z.leb_le in B; lia.
Qed.

(** The constructor makes real samples up to 32767 periods. *)
Lemma make_real a b s d : make_sample a b = Ok s -> difference b a = Ok d -> d < 32767 -> real_sample s.
Proof.
  unfold make_sample. intros H D L. rewrite D in H. cbn [rbind] in H. destruct (Z.ltb_spec d 0); [discriminate|].
  injection H as <-. unfold real_sample. cbn [s_nb s_start s_end]. rewrite to_short_id by lia. rewrite D. split; [lia|]. f_equal. lia.
Qed.

Section L.
Variable A : arith.
Notation variable := (list (F A)).

(** What becomes of one vector. *)
Definition resampled (nb n i j : Z) (v : variable) : option variable :=
  copy_range A (Z.to_nat n) (repeat (na A) (Z.to_nat nb)) v i j.
Lemma resampled_spec nb n i j v : 0 <= n -> 0 <= i -> 0 <= j -> i + n <= nb -> j + n <= Z.of_nat (length v) ->
  exists v', resampled nb n i j v = Some v' /\ Z.of_nat (length v') = nb /\
    forall t, 0 <= t < nb -> read A v' t = if (i <=? t) && (t <? i + n) then read A v (t - i + j) else Some (na A).
Proof.
  intros Hn Hi Hj H1 H2.
  destruct (copy_range_spec A (Z.to_nat n) (repeat (na A) (Z.to_nat nb)) v i j) as (v' & E & L & R); auto.
  { rewrite repeat_length. lia. } { lia. }
  exists v'. split; auto. rewrite repeat_length in L. split; [lia|]. intros t Ht. rewrite R, Z2Nat.id by lia.
  destruct (_ && _); auto. rewrite read_repeat. destruct (Z.leb_spec 0 t); [|lia].
  destruct (Z.ltb_spec t (Z.of_nat (Z.to_nat nb))); [|lia]. reflexivity.
Qed.

Lemma resize_objs_ok nb n i j : 0 <= nb -> forall l h, NoDup l ->
  (forall p, In p l -> exists v, nth_error h p = Some v /\ resampled nb n i j v <> None) ->
  exists h', resize_objs A l h nb n i j = (h', VRet true) /\ length h' = length h /\
    forall p, nth_error h' p = if in_list p l then match nth_error h p with Some v => resampled nb n i j v | None => None end
                               else nth_error h p.
Proof.
  intros Hnb. induction l as [|p l IH]; intros h ND H; cbn [resize_objs].
  - exists h. auto.
  - destruct (H p ltac:(now left)) as (v & Hv & Hr). rewrite Hv. destruct (Z.ltb_spec nb 0); [lia|].
    unfold resampled in Hr. destruct (copy_range _ _ _ _ _ _) as [v'|] eqn:E; [|congruence]. inversion ND; subst.
    destruct (IH (upd_list p (fun _ => v') h)) as (h' & E1 & E2 & E3); auto.
    { intros q Hq. rewrite nth_error_upd. destruct (Nat.eqb_spec q p) as [->|N]; [contradiction|]. apply H. now right. }
    exists h'. split; auto. split; [rewrite E2; apply upd_list_length|]. intros q. rewrite E3.
    unfold in_list in *. cbn [existsb]. rewrite nth_error_upd. destruct (Nat.eqb_spec q p) as [->|N]; cbn [orb].
    + assert (existsb (Nat.eqb p) l = false) as ->.
      { apply (in_list_false p l). auto. }
      rewrite Hv. cbn [option_map]. unfold resampled. now rewrite E.
    + destruct (existsb (Nat.eqb q) l); auto.
Qed.
Lemma resize_objs_length nb n i j l : forall h, length (fst (resize_objs A l h nb n i j)) = length h.
Proof.
  induction l as [|p l IH]; intros h; cbn [resize_objs]; auto. destruct (nth_error h p) as [v|].
  - destruct (nb <? 0); [apply upd_list_length|]. destruct (copy_range _ _ _ _ _ _); auto. rewrite IH. apply upd_list_length.
  - specialize (IH h). destruct (resize_objs A l h nb n i j) as [h' [b| |]]; auto.
Qed.
End L.
