(** Property C101: the cells of the files written by the export of variables. *)
From Coq Require Import ZArith Ascii String List Bool Lia ZifyBool Sorted Floats.SpecFloat.
From Verif Require Import M_Base M_Report M_Time M_Names M_Lex M_Compile M_Bytes M_Exec M_Double M_Decimal M_Kdb M_Grep M_Ascii M_Import M_Export
  S_Names S_Grep S_Ascii S_Import S_Export L_Names L_Kdb L_Decimal L_Round3 L_Round4 L_Ascii L_Import T_Import L_Export.
Import ListNotations.
Open Scope Z_scope.

Lemma trim_ends t : 32 < code (hd SP t) -> 32 < code (last t SP) -> trim t = t.
Proof.
  intros H L. assert (N : t <> []) by (intros ->; vm_compute in H; discriminate H). unfold trim.
  assert (D : drop_blank t = t) by (destruct t as [|x u]; [reflexivity|apply drop_blank_none, H]). rewrite D.
  destruct (exists_last N) as (u & x & ->). rewrite last_last in L. rewrite rev_app_distr. cbn [rev app]. rewrite drop_blank_none by exact L. cbn [rev]. rewrite rev_involutive. reflexivity.
Qed.
Section Files.
Variables (rs : rules) (na : str) (c : ascii) (z : str) (s : sample) (vars : smap (list dbl)) (cmts : smap str) (l : list (str * str * list dbl)) (ps : list str).
Hypothesis Hrs : sane rs.
Hypothesis Hsep : separator c z.
Hypothesis Hna : missing_text c na.
Hypothesis Hl : selected rs vars l.
Hypothesis Hps : list_periods s = Ok ps.
Hypothesis Hv : Forall (fun x => Z.of_nat (length (snd x)) = s_nb s) vars.
Hypothesis Hclean : Forall (clean c) (S2L "code" :: S2L "comment" :: ps) /\ Forall (fun x => clean c (snd (fst x))) l.
Hypothesis Hcmt : forall n, In n (map (fun x => fst (fst x)) l) -> ~ In c (comment_text cmts n).

Lemma last_cons (a : ascii) u d : last (a :: u) d = last u a.
Proof. revert a. induction u as [|b u IH]; intros a; [reflexivity|]. change (last (b :: u) d = last (b :: u) a). rewrite IH. destruct u; [reflexivity|]. cbn [last]. clear. revert a0. induction u; intros; [reflexivity|]. cbn [last]. apply IHu. Qed.
Lemma sep_is : EXP_SEP (c :: z) = c :: z.
Proof. destruct Hsep as (_ & _ & _ & L & E). apply (effective_text _ _ SP); [discriminate|exact L|]. rewrite last_cons. exact E. Qed.
Lemma na_is : EXP_NA na = na /\ trim na = na.
Proof.
  destruct Hna as (_ & L & H & E). split; [|apply trim_ends; assumption]. apply (effective_text _ _ SP); [|exact L|exact E]. intros X. rewrite X in H. vm_compute in H. discriminate H.
Qed.
Lemma c_blank : c <> SP /\ c <> LF.
Proof. destruct Hsep as (C & _). split; intros ->; vm_compute in C; discriminate C. Qed.
Lemma value_cells x : trim (value_cell na x) = value_cell na x /\ clean c (value_cell na x).
Proof.
  assert (F : forall t, Forall number_char t -> trim t = t /\ clean c t).
  { intros t H. split; [apply inked_trim, number_inked, H|]. destruct Hsep as (_ & N & _). rewrite Forall_forall in H. split; intros I; apply H in I; [exact (N I)|]. unfold number_char in I. cbn in I. intuition discriminate. }
  unfold value_cell. destruct (d_num x) eqn:D; [|split; [apply na_is|apply Hna]]. destruct (SFleb x (d_ofZ (- d_pow10 37))).
  - apply F. repeat (constructor; [apply num_c; reflexivity|]). constructor.
  - apply F, number_print, D.
Qed.
Lemma lengths n m v : In (n, m, v) l -> length v = Z.to_nat (s_nb s).
Proof.
  intros I. clear -I Hl Hv. induction Hl as [|n' v' vars' l' N Hs IH|n' m' v' vars' l' N Hs IH]; [contradiction| |]; inversion Hv as [|? ? F1 F2]; subst.
  - exact (IH Hs F2 I).
  - destruct I as [E|I]; [injection E as <- <- <-; cbn [snd] in *; lia|exact (IH Hs F2 I)].
Qed.
Lemma strip_clean t : clean c t -> clean c (M_Report.strip t).
Proof. intros [A B]. split; intros I; apply strip_in in I; contradiction. Qed.
Lemma one_line_in t x : In x (one_line t) <-> In x t /\ x <> LF.
Proof.
  unfold one_line. rewrite filter_In. split; intros [A B]; (split; [exact A|]).
  - intros ->. discriminate B.
  - apply negb_true_iff, Z.eqb_neq. intros E. apply B. apply (code_eq x 10); [lia|exact E].
Qed.
(** The cells of a row, before they are trimmed. *)
Definition raw (x : str * str * list dbl) : list str :=
  let '(n, m, v) := x in
  M_Report.strip m :: (SP :: M_Report.strip (one_line (comment_text cmts n))) ::
  match map (M_Report.strip) (map (value_cell na) v) with [] => [] | u :: us => (SP :: u) :: us end.
Definition rest_of (x : str * str * list dbl) : str := match snd x with [] => [SP] | _ => [] end.
Lemma csv_row_is x : In x l -> csv_row na (c :: z) cmts s x = Ok ((flat_map (fun u => u ++ c :: z) (raw x) ++ rest_of x) ++ [LF]).
Proof.
  destruct x as [[n m] v]. intros I. unfold csv_row, positions. rewrite values_read by (eapply lengths; exact I). cbn [rbind]. f_equal.
  unfold write_separator, write_pre_post, raw, rest_of. cbn [snd app flat_map]. change without_lf with one_line. destruct v as [|y v].
  - cbn [map flat_map app]. repeat progress (rewrite <- ?app_assoc, ?app_nil_r; cbn [app]). reflexivity.
  - cbn [map flat_map]. rewrite app_nil_r. assert (E : forall k, flat_map (fun t => M_Report.strip t ++ c :: z) k = flat_map (fun u => u ++ c :: z) (map M_Report.strip k)) by (induction k as [|a k IH]; [reflexivity|cbn [flat_map map]; rewrite IH; reflexivity]).
    rewrite E. repeat progress (rewrite <- ?app_assoc; cbn [app]). reflexivity.
Qed.
Lemma raw_clean x : In x l -> Forall (clean c) (raw x) /\ clean c (rest_of x).
Proof.
  destruct x as [[n m] v]. intros I. destruct Hclean as [_ H2]. rewrite Forall_forall in H2. pose proof (H2 _ I) as Hm. cbn [fst snd] in Hm. pose proof (Hcmt n (in_map (fun x => fst (fst x)) _ _ I)) as Hc. split.
  - unfold raw. constructor; [apply strip_clean, Hm|]. pose proof c_blank as [B1 B2]. assert (SPc : forall u, clean c u -> clean c (SP :: u)) by (intros u [A B]; split; intros [X|X]; try contradiction; try congruence; discriminate X).
    constructor; [apply SPc, strip_clean; split; intros X; apply one_line_in in X as [X1 X2]; [exact (Hc X1)|exact (X2 eq_refl)]|].
    assert (V : Forall (clean c) (map M_Report.strip (map (value_cell na) v))) by (apply Forall_forall; intros u X; apply in_map_iff in X as (w & <- & X); apply in_map_iff in X as (y & <- & _); apply strip_clean, value_cells).
    inversion V as [|u us Vu Vus]; constructor; [apply SPc, Vu|exact Vus].
  - unfold rest_of. cbn [snd]. destruct v; [|split; intros []]. pose proof c_blank as [B1 B2]. split; intros [X|[]]; [congruence|discriminate X].
Qed.
Lemma trim_strips k : (forall u, In u k -> trim u = u) -> map trim (map M_Report.strip k) = k.
Proof. intros H. rewrite map_map. rewrite <- (map_id k) at 2. apply map_ext_in. intros u I. rewrite trim_strip. apply H, I. Qed.
Lemma raw_cells x : In x l -> map trim (pieces (c :: z) (flat_map (fun u => u ++ c :: z) (raw x) ++ rest_of x)) =
  trim (snd (fst x)) :: trim (one_line (comment_text cmts (fst (fst x)))) :: map (value_cell na) (snd x) ++ [[]].
Proof.
  intros I. destruct (raw_clean x I) as [R T]. assert (R' : Forall (fun u => ~ In c u) (raw x)) by (eapply Forall_impl; [|exact R]; intros u X; apply X).
  assert (M : map trim (raw x) = trim (snd (fst x)) :: trim (one_line (comment_text cmts (fst (fst x)))) :: map (value_cell na) (snd x)).
  { destruct x as [[n m] v]. unfold raw. cbn [fst snd map]. rewrite trim_strip, trim_blank, trim_strip. do 2 f_equal.
    rewrite <- (trim_strips (map (value_cell na) v)) at 2 by (intros u X; apply in_map_iff in X as (y & <- & _); apply value_cells).
    destruct (map M_Report.strip (map (value_cell na) v)); [reflexivity|]. cbn [map]. rewrite trim_blank. reflexivity. }
  unfold rest_of. destruct (snd x) as [|y v] eqn:E; cbn [map app] in *.
  - rewrite row_cells_blank; [rewrite M; reflexivity|apply c_blank|exact R'].
  - rewrite app_nil_r, row_cells by exact R'. rewrite M. reflexivity.
Qed.
Lemma flat_lines k : (forall u, In u k -> clean c u) -> ~ In LF (flat_map (fun u => u ++ c :: z) k).
Proof.
  intros H X. apply in_flat in X as [X|(u & I & X)]; [|exact (proj2 (H u I) X)]. destruct Hsep as (_ & _ & N & _). destruct X as [X|X]; [apply c_blank; exact X|contradiction].
Qed.
Theorem csv_cells : exists file, export_csv rs na (c :: z) (Some s) vars cmts = Ok file /\
  cells_of (c :: z) file = (S2L "code" :: S2L "comment" :: map trim ps ++ [[]]) ::
    map (fun x => trim (snd (fst x)) :: trim (one_line (comment_text cmts (fst (fst x)))) :: map (value_cell na) (snd x) ++ [[]]) l ++ [[[]]].
Proof.
  unfold export_csv. rewrite Hps. cbn [rbind]. rewrite (selected_ok rs vars l Hrs Hl). cbn [rbind]. rewrite sep_is, (proj1 na_is).
  rewrite (mapM_all _ (fun x => (flat_map (fun u => u ++ c :: z) (raw x) ++ rest_of x) ++ [LF])) by exact csv_row_is. cbn [rbind]. eexists. split; [reflexivity|].
  set (hd_ := flat_map (fun u => u ++ c :: z) (S2L "code" :: S2L "comment" :: ps)). set (rows := map (fun x => flat_map (fun u => u ++ c :: z) (raw x) ++ rest_of x) l).
  match goal with |- cells_of _ ?f = _ => replace f with (flat_map (fun u => u ++ [LF]) (hd_ :: rows)) end.
  2:{ unfold hd_, rows. cbn [flat_map]. rewrite (flat_map_concat_map (fun u => u ++ [LF])), map_map. repeat progress (rewrite <- ?app_assoc; cbn [app]). reflexivity. }
  assert (Hc : Forall (fun u => clean c u) (S2L "code" :: S2L "comment" :: ps)).
  { exact (proj1 Hclean). }
  unfold cells_of. change [chr 10] with [LF]. rewrite file_lines.
  - rewrite map_app. cbn [map app]. apply f_equal2; [|apply f_equal2; [|reflexivity]].
    + unfold hd_. rewrite row_cells; [reflexivity|]. eapply Forall_impl; [|exact Hc]. intros u X. apply X.
    + unfold rows. rewrite map_map. apply map_ext_in. exact raw_cells.
  - constructor; [unfold hd_; apply flat_lines, Forall_forall, Hc|]. apply Forall_forall. intros u X. apply in_map_iff in X as (x & <- & I). destruct (raw_clean x I) as [R T].
    intros Y. apply in_app_or in Y as [Y|Y]; [|exact (proj2 T Y)]. revert Y. apply flat_lines, Forall_forall, R.
Qed.
Lemma blanks_before k : SP :: flat_map (fun v => (v ++ c :: z) ++ [SP]) k = flat_map (fun u => u ++ c :: z) (map (cons SP) k) ++ [SP].
Proof.
  induction k as [|v k IH]; [reflexivity|]. cbn [flat_map map]. rewrite <- !app_assoc. cbn [app]. rewrite IH. rewrite <- ?app_assoc. reflexivity.
Qed.
Lemma flat_strips {X} (g : X -> str) k : flat_map (fun x => write_separator (c :: z) (g x) ++ [SP]) k = flat_map (fun v => (v ++ c :: z) ++ [SP]) (map (fun x => M_Report.strip (g x)) k).
Proof. induction k as [|x k IH]; [reflexivity|]. cbn [flat_map map]. rewrite IH. reflexivity. Qed.
Definition raw_rotated (t : nat * str) : list str := snd t :: map (cons SP) (map (fun x => M_Report.strip (value_cell na (nth (fst t) (snd x) d_na))) l).
Lemma mapM_length {A B} (f : A -> res B) : forall k r, mapM f k = Ok r -> length r = length k.
Proof.
  induction k as [|a k IH]; intros r H; cbn [mapM] in H; [injection H as <-; reflexivity|]. destruct (f a); try discriminate H. cbn [rbind] in H. destruct (mapM f k) eqn:E; try discriminate H. cbn [rbind] in H. injection H as <-. cbn [length]. f_equal. apply IH. reflexivity.
Qed.
Lemma seqZ_length n : forall a, length (seqZ a n) = n.
Proof. induction n as [|n IH]; intros a; [reflexivity|]. cbn [seqZ length]. rewrite IH. reflexivity. Qed.
Lemma periods_length : length ps = Z.to_nat (s_nb s).
Proof. unfold list_periods in Hps. apply mapM_length in Hps. rewrite seqZ_length in Hps. exact Hps. Qed.
Lemma rotated_row_is t : In t (combine (seq 0 (length ps)) ps) -> rotated_row na (c :: z) l t = Ok ((flat_map (fun u => u ++ c :: z) (raw_rotated t) ++ [SP]) ++ [LF]).
Proof.
  destruct t as [t p]. intros I. apply in_combine_l in I. apply in_seq in I. unfold rotated_row. cbn [fst snd].
  rewrite (mapM_all _ (fun x => value_cell na (nth t (snd x) d_na))).
  - cbn [rbind]. f_equal. rewrite (flat_strips (fun v => v)). change (SP :: ?a ++ [LF]) with ((SP :: a) ++ [LF]). rewrite blanks_before. unfold raw_rotated. cbn [flat_map fst snd]. rewrite !map_map.
    repeat progress (rewrite <- ?app_assoc; cbn [app]). reflexivity.
  - intros [[n m] v] X. unfold value_at. cbn [snd]. rewrite (nth_error_nth' v d_na) by (rewrite (lengths n m v X), <- periods_length; lia). rewrite written. reflexivity.
Qed.
Lemma sp_clean u : clean c u -> clean c (SP :: u).
Proof. pose proof c_blank as [B1 B2]. intros [A B]; split; intros [X|X]; try contradiction; try congruence; discriminate X. Qed.
Theorem rotated_cells : exists file, export_rotated rs na (c :: z) (Some s) vars = Ok file /\
  cells_of (c :: z) file = ([] :: map (fun x => trim (snd (fst x))) l ++ [[]]) ::
    map (fun t => trim (snd t) :: map (fun x => value_cell na (nth (fst t) (snd x) d_na)) l ++ [[]]) (combine (seq 0 (length ps)) ps) ++ [[[]]].
Proof.
  unfold export_rotated. rewrite (selected_ok rs vars l Hrs Hl). cbn [rbind]. rewrite Hps. cbn [rbind]. rewrite sep_is, (proj1 na_is). unfold positions. rewrite <- periods_length.
  rewrite (mapM_all _ (fun t => (flat_map (fun u => u ++ c :: z) (raw_rotated t) ++ [SP]) ++ [LF])) by exact rotated_row_is. cbn [rbind]. eexists. split; [reflexivity|].
  set (names := [] :: map (cons SP) (map (fun x => M_Report.strip (snd (fst x))) l)). set (hd_ := flat_map (fun u => u ++ c :: z) names ++ [SP]).
  set (rows := map (fun t => flat_map (fun u => u ++ c :: z) (raw_rotated t) ++ [SP]) (combine (seq 0 (length ps)) ps)).
  match goal with |- cells_of _ ?f = _ => replace f with (flat_map (fun u => u ++ [LF]) (hd_ :: rows)) end.
  2:{ unfold hd_, rows, names. cbn [flat_map]. rewrite (flat_map_concat_map (fun u => u ++ [LF])). rewrite (flat_strips (fun x => snd (fst x))).
      change (SP :: ?a ++ LF :: ?b) with ((SP :: a) ++ LF :: b). rewrite blanks_before, !map_map. repeat progress (rewrite <- ?app_assoc; cbn [app]). reflexivity. }
  destruct Hclean as [Hc Hn]. inversion Hc as [|? ? _ Hc1]; subst. inversion Hc1 as [|? ? _ Hc2]; subst.
  assert (F1 : Forall (clean c) names).
  { unfold names. constructor; [split; intros []|]. apply Forall_forall. intros u X. apply in_map_iff in X as (w & <- & X). apply in_map_iff in X as (x & <- & X). apply sp_clean, strip_clean. rewrite Forall_forall in Hn. apply Hn, X. }
  assert (F2 : forall t, In t (combine (seq 0 (length ps)) ps) -> Forall (clean c) (raw_rotated t)).
  { intros [t p] X. apply in_combine_r in X. unfold raw_rotated. constructor; [rewrite Forall_forall in Hc2; apply Hc2, X|]. apply Forall_forall. intros u Y. apply in_map_iff in Y as (w & <- & Y). apply in_map_iff in Y as (x & <- & _). apply sp_clean, strip_clean, value_cells. }
  assert (LFrow : forall k, Forall (clean c) k -> ~ In LF (flat_map (fun u => u ++ c :: z) k ++ [SP])).
  { intros k F X. apply in_app_or in X as [X|[X|[]]]; [|discriminate X]. revert X. apply flat_lines, Forall_forall, F. }
  assert (Sub : forall k, Forall (clean c) k -> Forall (fun u => ~ In c u) k) by (intros k F; eapply Forall_impl; [|exact F]; intros u X; apply X).
  unfold cells_of. change [chr 10] with [LF]. rewrite file_lines.
  - rewrite map_app. cbn [map app]. apply f_equal2; [|apply f_equal2; [|reflexivity]].
    + unfold hd_. rewrite row_cells_blank; [|apply c_blank|apply Sub, F1]. unfold names. cbn [map app]. f_equal. f_equal. rewrite !map_map. apply map_ext. intros x. rewrite trim_blank. apply trim_strip.
    + unfold rows. rewrite map_map. apply map_ext_in. intros t X. rewrite row_cells_blank; [|apply c_blank|apply Sub, F2, X]. unfold raw_rotated. cbn [map app]. f_equal. f_equal. rewrite !map_map. apply map_ext. intros x. rewrite trim_blank, trim_strip. apply value_cells.
  - constructor; [apply LFrow, F1|]. apply Forall_forall. intros u X. apply in_map_iff in X as (t & <- & I). apply LFrow, F2, I.
Qed.
(** The cell in a row and a column. *)
Definition cell_at (i j : nat) (rows : list (list str)) : str := nth j (nth i rows []) [].
Lemma nth_map_in {A B} (f : A -> B) k r : forall i d e, (i < length k)%nat -> nth i (map f k ++ r) e = f (nth i k d).
Proof. induction k as [|a k IH]; intros [|i] d e H; cbn [length map nth app] in *; try lia; [reflexivity|]. apply IH. lia. Qed.
Theorem transposed : exists f g, export_csv rs na (c :: z) (Some s) vars cmts = Ok f /\ export_rotated rs na (c :: z) (Some s) vars = Ok g /\
  forall i t, (i < length l)%nat -> (t < length ps)%nat -> cell_at (S i) (S (S t)) (cells_of (c :: z) f) = cell_at (S t) (S i) (cells_of (c :: z) g).
Proof.
  destruct csv_cells as (f & F1 & F2). destruct rotated_cells as (g & G1 & G2). exists f, g. split; [exact F1|]. split; [exact G1|]. intros i t I T. rewrite F2, G2.
  unfold cell_at. change (nth (S i) (?h :: ?r) []) with (nth i r []). change (nth (S t) (?h :: ?r) []) with (nth t r []).
  rewrite (nth_map_in _ l _ i ([], [], [])) by exact I. rewrite (nth_map_in _ (combine (seq 0 (length ps)) ps) _ t (O, [])) by (rewrite combine_length, seq_length; lia). rewrite combine_nth by apply seq_length. rewrite seq_nth by exact T. cbn [nth fst snd].
  assert (L : length (snd (nth i l ([], [], []))) = length ps).
  { pose proof (nth_In l ([], [], []) I) as X. destruct (nth i l ([], [], [])) as [[n m] v]. rewrite periods_length. exact (lengths n m v X). }
  rewrite (nth_map_in _ _ _ t d_na) by lia. rewrite (nth_map_in _ l _ i ([], [], [])) by exact I. reflexivity.
Qed.
End Files.

(** * DIF *)
Definition two (x : str * str) : list str := [fst x; snd x].
Lemma pairs_two k : pairs (flat_map two k ++ [[]]) = k.
Proof. induction k as [|[a b] k IH]; [reflexivity|]. cbn [flat_map two app pairs fst snd]. rewrite IH. reflexivity. Qed.
Definition bot : str * str := (S2L "-1,0", S2L "BOT").
Definition eod : str * str := (S2L "-1,0", S2L "EOD").
Definition text_pair (t : str) : str * str := (S2L "1,0", quote t).
Definition value_pair (t : str) : str * str := (S2L "0," ++ t, S2L "V").
Lemma unquoted_quote t : unquote (quote t) = t.
Proof. unfold unquote, quote. cbn [tl]. rewrite rev_app_distr. cbn [rev app tl]. apply rev_involutive. Qed.
Lemma tuples_text t k h r : tuples k = h :: r -> tuples (text_pair t :: k) = (t :: h) :: r.
Proof. intros E. cbn [tuples]. rewrite E. change (str_eqb (fst (text_pair t)) (S2L "-1,0")) with false. cbv iota. unfold dif_cell, text_pair. cbn [fst snd]. change (unquote (quote t) :: h) with (unquote (quote t) :: h). cbn [S2L list_ascii_of_string]. change ((code "1"%char =? 48) && (code ","%char =? 44)) with false. cbv iota. rewrite unquoted_quote. reflexivity. Qed.
Lemma tuples_value t k h r : tuples k = h :: r -> tuples (value_pair t :: k) = (t :: h) :: r.
Proof. intros E. cbn [tuples]. rewrite E. reflexivity. Qed.
Lemma tuples_texts ts k h r : tuples k = h :: r -> tuples (map text_pair ts ++ k) = (ts ++ h) :: r.
Proof. intros E. induction ts as [|t ts IH]; [exact E|]. cbn [map app]. apply tuples_text, IH. Qed.
Lemma tuples_values ts k h r : tuples k = h :: r -> tuples (map value_pair ts ++ k) = (ts ++ h) :: r.
Proof. intros E. induction ts as [|t ts IH]; [exact E|]. cbn [map app]. apply tuples_value, IH. Qed.
Lemma tuples_bot k : tuples (bot :: k) = [] :: tuples k. Proof. reflexivity. Qed.
Section Dif.
Variables (rs : rules) (na : str) (s : sample) (vars : smap (list dbl)) (cmts : smap str) (l : list (str * str * list dbl)) (ps : list str).
Hypothesis Hrs : sane rs.
Hypothesis Hna : na <> [] /\ (length na <= 10)%nat /\ ~ In LF na /\ 32 < code (last na SP).
Hypothesis Hl : selected rs vars l.
Hypothesis Hps : list_periods s = Ok ps.
Hypothesis Hnb : 1 <= s_nb s.
Hypothesis Hv : Forall (fun x => Z.of_nat (length (snd x)) = s_nb s) vars.
Hypothesis Hclean : Forall (fun p => ~ In LF p) ps /\ Forall (fun x => ~ In LF (snd (fst x)) /\ ~ In LF (comment_text cmts (fst (fst x)))) l.
Lemma inked_end t : Forall (fun c => 32 < code c) t -> M_Report.strip t = t.
Proof.
  intros F. unfold M_Report.strip. change drop_low with drop_blank. assert (D : forall u, Forall (fun c => 32 < code c) u -> drop_blank u = u) by (intros u H; destruct H as [|c u H _]; [reflexivity|apply drop_blank_none, H]).
  rewrite (D _ (Forall_rev F)). apply rev_involutive.
Qed.
Lemma value_strip x : M_Report.strip (value_cell na x) = value_cell na x /\ ~ In LF (value_cell na x).
Proof.
  assert (F : forall t, Forall number_char t -> M_Report.strip t = t /\ ~ In LF t).
  { intros t H. split; [apply inked_end, number_inked, H|]. apply number_inked in H. rewrite Forall_forall in H. intros I. apply H in I. vm_compute in I. discriminate I. }
  unfold value_cell. destruct (d_num x) eqn:D.
  - destruct (SFleb x (d_ofZ (- d_pow10 37))); [apply F; repeat (constructor; [apply num_c; reflexivity|]); constructor|apply F, number_print, D].
  - destruct Hna as (A & B & C & E). split; [exact (strip_last na SP A E)|exact C].
Qed.
Definition dif_pairs (x : str * str * list dbl) : list (str * str) :=
  let '(n, m, v) := x in bot :: map text_pair [M_Report.strip m; M_Report.strip (comment_text cmts n)] ++ map value_pair (map (value_cell na) v).
Definition as_file (k : list (str * str)) : str := flat_map (fun u => u ++ [LF]) (flat_map two k).
Lemma as_file_app a b : as_file (a ++ b) = as_file a ++ as_file b.
Proof. unfold as_file. rewrite !flat_map_app. reflexivity. Qed.
Lemma lines_app (a b : list str) : flat_map (fun u => u ++ [LF]) (a ++ b) = flat_map (fun u => u ++ [LF]) a ++ flat_map (fun u => u ++ [LF]) b.
Proof. apply flat_map_app. Qed.
Lemma dif_row_is x : In x l -> dif_row na cmts s x = Ok (as_file (dif_pairs x)).
Proof.
  destruct x as [[n m] v]. intros I. unfold dif_row, positions. pose proof (lengths rs s vars l Hl Hv n m v I) as L. rewrite values_read by exact L. cbn [rbind].
  destruct v as [|y v]; [cbn [length] in L; lia|]. change (map (value_cell na) (y :: v)) with (value_cell na y :: map (value_cell na) v) at 1. cbv iota. f_equal.
  unfold dif_pairs. change (bot :: ?a ++ ?b) with ((bot :: a) ++ b). rewrite as_file_app.
  assert (V : forall k, flat_map (write_pre_post (S2L "0,") (LF :: S2L "V" ++ [LF])) (map (value_cell na) k) = as_file (map value_pair (map (value_cell na) k))).
  { induction k as [|w k IH]; [reflexivity|]. cbn [map flat_map]. change (value_pair ?a :: ?b) with ([value_pair a] ++ b). rewrite as_file_app, <- IH. unfold write_pre_post. rewrite (proj1 (value_strip w)).
    unfold as_file, two, value_pair. cbn [flat_map fst snd app]. repeat progress (rewrite <- ?app_assoc; cbn [app S2L list_ascii_of_string]). reflexivity. }
  rewrite V. unfold write_pre_post, as_file, two, bot, text_pair, quote. cbn [flat_map map fst snd app]. repeat progress (rewrite <- ?app_assoc, ?app_nil_r; cbn [app S2L list_ascii_of_string]). reflexivity.
Qed.
Definition dif_header : list str :=
  [S2L "TABLE"; S2L "0,1"; quote []; S2L "VECTORS"; S2L "0," ++ to_string (s_nb s + 2); quote []; S2L "TUPLES";
   S2L "0," ++ to_string (Z.of_nat (length vars) + 1); quote []; S2L "DATA"; S2L "0,0"; quote []].
Definition dif_data : list (str * str) := bot :: map text_pair (S2L "CODE" :: S2L "COMMENT" :: ps) ++ flat_map dif_pairs l ++ [eod].
Lemma dif_file : export_dif rs na (Some s) vars cmts = Ok (flat_map (fun u => u ++ [LF]) (dif_header ++ flat_map two dif_data)).
Proof.
  unfold export_dif. rewrite Hps. cbn [rbind]. rewrite (selected_ok rs vars l Hrs Hl). cbn [rbind].
  assert (En : EXP_NA na = na) by (destruct Hna as (A & B & C & E); apply (effective_text _ _ SP); assumption). rewrite En.
  rewrite (mapM_all _ (fun x => as_file (dif_pairs x))) by exact dif_row_is. cbn [rbind]. f_equal. unfold dif_data.
  set (hd_ := [S2L "-1,0"; S2L "BOT"; S2L "1,0"; quote (S2L "CODE"); S2L "1,0"; quote (S2L "COMMENT")] ++ flat_map (fun p => [S2L "1,0"; quote p]) ps).
  assert (D : flat_map two (bot :: map text_pair (S2L "CODE" :: S2L "COMMENT" :: ps) ++ flat_map dif_pairs l ++ [eod]) = hd_ ++ flat_map two (flat_map dif_pairs l) ++ [S2L "-1,0"; S2L "EOD"]).
  { change (bot :: ?a ++ ?b) with ((bot :: a) ++ b). rewrite !flat_map_app. f_equal. unfold hd_. cbn [map flat_map two fst snd bot text_pair app]. do 6 f_equal. clear. induction ps as [|p k IH]; [reflexivity|]. cbn [map flat_map two text_pair fst snd app]. rewrite IH. reflexivity. }
  rewrite D. assert (C : concat (map (fun x => as_file (dif_pairs x)) l) = as_file (flat_map dif_pairs l)).
  { clear. induction l as [|x k IH]; [reflexivity|]. cbn [map concat flat_map]. rewrite as_file_app, IH. reflexivity. }
  rewrite C. change (fun u : str => u ++ [LF]) with (fun u : list ascii => u ++ [LF]). change (flat_map (fun u => u ++ [LF])) with dif_lines. change as_file with (fun k => dif_lines (flat_map two k)). cbv beta.
  assert (A : forall a b, dif_lines (a ++ b) = dif_lines a ++ dif_lines b) by (intros a b; apply flat_map_app). match goal with |- dif_lines ?x ++ _ = _ => change x with (dif_header ++ hd_) end. rewrite !A, <- !app_assoc. reflexivity.
Qed.
(** A tuple for the names of the columns, then one for each variable that is exported. *)
Theorem dif_cells : exists file, export_dif rs na (Some s) vars cmts = Ok file /\
  dif_tuples file = (S2L "CODE" :: S2L "COMMENT" :: ps) :: map (fun x => trim_end (snd (fst x)) :: trim_end (comment_text cmts (fst (fst x))) :: map (value_cell na) (snd x)) l /\
  nth 4 (pieces [LF] file) [] = S2L "0," ++ to_string (s_nb s + 2) /\ nth 7 (pieces [LF] file) [] = S2L "0," ++ to_string (Z.of_nat (length vars) + 1).
Proof.
  rewrite dif_file. eexists. split; [reflexivity|].
  assert (Nq : forall t, ~ In LF t -> ~ In LF (quote t)) by (intros t N X; unfold quote in X; destruct X as [X|X]; [discriminate X|]; apply in_app_or in X as [X|[X|[]]]; [exact (N X)|discriminate X]).
  assert (Ns : forall t, ~ In LF t -> ~ In LF (M_Report.strip t)) by (intros t N X; apply strip_in in X; contradiction).
  assert (Nz : forall n, 0 <= n -> ~ In LF (S2L "0," ++ to_string n)).
  { intros n Hn X. apply in_app_or in X as [X|X]; [cbn in X; intuition discriminate|]. pose proof (number_inked _ (number_string n Hn)) as F. rewrite Forall_forall in F. apply F in X. vm_compute in X. discriminate X. }
  assert (Hl1 : Forall (fun u => ~ In LF u) (dif_header ++ flat_map two dif_data)).
  { apply Forall_app. split.
    - unfold dif_header. repeat (apply Forall_cons; [first [apply Nz; lia|cbn; intuition discriminate]|]). apply Forall_nil.
    - assert (P : Forall (fun x => ~ In LF (fst x) /\ ~ In LF (snd x)) dif_data).
      { destruct Hclean as [H1 H2]. unfold dif_data. apply Forall_cons; [split; cbn; intuition discriminate|]. apply Forall_app. split; [|apply Forall_app; split].
        - apply Forall_forall. intros x X. apply in_map_iff in X as (t & <- & X). split; [cbn; intuition discriminate|]. cbn [text_pair snd]. apply Nq. destruct X as [<-|[<-|X]]; [cbn; intuition discriminate|cbn; intuition discriminate|].
          rewrite Forall_forall in H1. apply H1, X.
        - apply Forall_forall. intros x X. apply in_flat_map in X as ([[n m] v] & I & X). rewrite Forall_forall in H2. pose proof (H2 _ I) as [M1 M2]. cbn [fst snd] in M1, M2. unfold dif_pairs in X. destruct X as [<-|X]; [split; cbn; intuition discriminate|].
          apply in_app_or in X as [X|X]; apply in_map_iff in X as (t & <- & X).
          + split; [cbn; intuition discriminate|]. cbn [text_pair snd]. apply Nq. destruct X as [<-|[<-|[]]]; apply Ns; assumption.
          + apply in_map_iff in X as (y & <- & _). split; [|cbn; intuition discriminate]. cbn [value_pair fst]. intros X. apply in_app_or in X as [X|X]; [cbn in X; intuition discriminate|]. exact (proj2 (value_strip y) X).
        - apply Forall_cons; [split; cbn; intuition discriminate|apply Forall_nil]. }
      apply Forall_forall. intros u X. apply in_flat_map in X as (x & I & X). rewrite Forall_forall in P. destruct (P x I) as [P1 P2]. destruct X as [<-|[<-|[]]]; assumption. }
  change (fun u : str => u ++ [LF]) with (fun u : list ascii => u ++ [LF]). split; [|split].
  - unfold dif_tuples. change [chr 10] with [LF]. rewrite file_lines by exact Hl1. rewrite <- app_assoc. change (skipn 12 (dif_header ++ ?r)) with r. rewrite pairs_two.
    unfold dif_data. rewrite tuples_bot. cbn [tl].
    assert (R : tuples (flat_map dif_pairs l ++ [eod]) = [] :: map (fun x => trim_end (snd (fst x)) :: trim_end (comment_text cmts (fst (fst x))) :: map (value_cell na) (snd x)) l).
    { clear. induction l as [|[[n m] v] k IH]; [reflexivity|]. cbn [flat_map map fst snd]. unfold dif_pairs at 1. cbn [app map]. rewrite tuples_bot. f_equal.
      rewrite <- app_assoc. rewrite (tuples_text _ _ (trim_end (comment_text cmts n) :: map (value_cell na) v) (map (fun x => trim_end (snd (fst x)) :: trim_end (comment_text cmts (fst (fst x))) :: map (value_cell na) (snd x)) k)); [reflexivity|].
      apply (tuples_text _ _ (map (value_cell na) v)). rewrite (tuples_values _ _ [] _ IH), app_nil_r. reflexivity. }
    rewrite (tuples_texts _ _ _ _ R), app_nil_r. reflexivity.
  - rewrite file_lines by exact Hl1. reflexivity.
  - rewrite file_lines by exact Hl1. reflexivity.
Qed.
End Dif.

(** * The theorems *)
(** One line for each exported variable: its new name, its comment, its values; the first line holds the periods. *)
Theorem C101_csv_partial : forall rs na c z s vars cmts l ps, sane rs -> separator c z -> missing_text c na -> selected rs vars l -> list_periods s = Ok ps ->
  Forall (fun x => Z.of_nat (length (snd x)) = s_nb s) vars ->
  Forall (clean c) (S2L "code" :: S2L "comment" :: ps) /\ Forall (fun x => clean c (snd (fst x))) l ->
  (forall n, In n (map (fun x => fst (fst x)) l) -> ~ In c (match M_Kdb.find n cmts with Some t => t | None => [] end)) ->
  exists file, export_csv rs na (c :: z) (Some s) vars cmts = Ok file /\
  cells_of (c :: z) file = (S2L "code" :: S2L "comment" :: map trim ps ++ [[]]) ::
    map (fun x => trim (snd (fst x)) :: trim (one_line (match M_Kdb.find (fst (fst x)) cmts with Some t => t | None => [] end)) :: map (value_cell na) (snd x) ++ [[]]) l ++ [[[]]].
Proof. intros rs na c z s vars cmts l ps H1 H2 H3 H4 H5 H6 H7 H8. exact (csv_cells rs na c z s vars cmts l ps H1 H2 H3 H4 H5 H6 H7 H8). Qed.
(** The rotated file: one column for each variable, one line for each period. *)
Theorem C101_rotated_partial : forall rs na c z s vars l ps, sane rs -> separator c z -> missing_text c na -> selected rs vars l -> list_periods s = Ok ps ->
  Forall (fun x => Z.of_nat (length (snd x)) = s_nb s) vars ->
  Forall (clean c) (S2L "code" :: S2L "comment" :: ps) /\ Forall (fun x => clean c (snd (fst x))) l ->
  exists file, export_rotated rs na (c :: z) (Some s) vars = Ok file /\
  cells_of (c :: z) file = ([] :: map (fun x => trim (snd (fst x))) l ++ [[]]) ::
    map (fun t => trim (snd t) :: map (fun x => value_cell na (nth (fst t) (snd x) d_na)) l ++ [[]]) (combine (seq 0 (length ps)) ps) ++ [[[]]].
Proof. intros rs na c z s vars l ps H1 H2 H3 H4 H5 H6 H7. apply (rotated_cells rs na c z s vars [] l ps H1 H2 H3 H4 H5 H6 H7). intros n _ I. exact I. Qed.
(** The same cells in both files, rows and columns exchanged. *)
Theorem C101_transposed_partial : forall rs na c z s vars cmts l ps, sane rs -> separator c z -> missing_text c na -> selected rs vars l -> list_periods s = Ok ps ->
  Forall (fun x => Z.of_nat (length (snd x)) = s_nb s) vars ->
  Forall (clean c) (S2L "code" :: S2L "comment" :: ps) /\ Forall (fun x => clean c (snd (fst x))) l ->
  (forall n, In n (map (fun x => fst (fst x)) l) -> ~ In c (match M_Kdb.find n cmts with Some t => t | None => [] end)) ->
  exists f g, export_csv rs na (c :: z) (Some s) vars cmts = Ok f /\ export_rotated rs na (c :: z) (Some s) vars = Ok g /\
  forall i t, (i < length l)%nat -> (t < length ps)%nat ->
    nth (S (S t)) (nth (S i) (cells_of (c :: z) f) []) [] = nth (S i) (nth (S t) (cells_of (c :: z) g) []) [].
Proof. intros rs na c z s vars cmts l ps H1 H2 H3 H4 H5 H6 H7 H8. exact (transposed rs na c z s vars cmts l ps H1 H2 H3 H4 H5 H6 H7 H8). Qed.
(** The DIF file: one tuple for each exported variable; when no rule leaves one out, their number is the one in the header. *)
Theorem C101_dif_partial : forall rs na s vars cmts l ps, sane rs -> na <> [] /\ (length na <= 10)%nat /\ ~ In LF na /\ 32 < code (last na SP) -> selected rs vars l -> list_periods s = Ok ps ->
  1 <= s_nb s -> Forall (fun x => Z.of_nat (length (snd x)) = s_nb s) vars ->
  Forall (fun p => ~ In LF p) ps /\ Forall (fun x => ~ In LF (snd (fst x)) /\ ~ In LF (match M_Kdb.find (fst (fst x)) cmts with Some t => t | None => [] end)) l ->
  exists file, export_dif rs na (Some s) vars cmts = Ok file /\
  dif_tuples file = (S2L "CODE" :: S2L "COMMENT" :: ps) ::
    map (fun x => trim_end (snd (fst x)) :: trim_end (match M_Kdb.find (fst (fst x)) cmts with Some t => t | None => [] end) :: map (value_cell na) (snd x)) l /\
  nth 4 (pieces [LF] file) [] = S2L "0," ++ to_string (s_nb s + 2) /\ nth 7 (pieces [LF] file) [] = S2L "0," ++ to_string (Z.of_nat (length vars) + 1) /\
  (length l = length vars -> nth 7 (pieces [LF] file) [] = S2L "0," ++ to_string (Z.of_nat (length (dif_tuples file)))).
Proof.
  intros rs na s vars cmts l ps H1 H2 H3 H4 H5 H6 H7. destruct (dif_cells rs na s vars cmts l ps H1 H2 H3 H4 H5 H6 H7) as (f & A & B & C & D). exists f. split; [exact A|]. split; [exact B|]. split; [exact C|]. split; [exact D|].
  intros E. rewrite D, B. cbn [length]. rewrite map_length, E. do 2 f_equal. lia.
Qed.
Lemma common_above x : common x -> SFleb x (d_ofZ (- d_pow10 37)) = false.
Proof.
  intros C. destruct x as [s|s| |s m e]; try (exfalso; exact (proj1 C)). change (d_ofZ (- d_pow10 37)) with (S754_finite true 8470329472543003 70). destruct s; [|reflexivity].
  pose proof (common_normal true m e C) as [[M0 M] E]. destruct C as (_ & _ & _ & _ & U). specialize (U eq_refl). cbn [numer denom] in U. unfold SFleb, SFcompare. destruct (e ?= 70) eqn:Q.
  - apply Z.compare_eq in Q. subst e. change (0 <=? 70) with true in U. cbv iota in U. assert (X : 10 ^ 36 < 2 ^ 52 * 2 ^ 70) by (vm_compute; reflexivity). exfalso. set (u := 10 ^ 36) in *. set (b := 2 ^ 70) in *. set (w := 2 ^ 52) in *. assert (0 < b) by (vm_compute; reflexivity). clearbody u b w. nia.
  - reflexivity.
  - exfalso. rewrite Z.compare_gt_iff in Q. replace (0 <=? e) with true in U by lia. assert (2 ^ 71 <= 2 ^ e) by (apply Z.pow_le_mono_r; lia). assert (X : 10 ^ 36 < 2 ^ 52 * 2 ^ 71) by (vm_compute; reflexivity).
    set (u := 10 ^ 36) in *. set (b := 2 ^ 71) in *. set (w := 2 ^ 52) in *. set (v := 2 ^ e) in *. assert (0 < b) by (vm_compute; reflexivity). clearbody u b w v. nia.
Qed.
(** The text in the cell of a number is the one of a number with the same sign, at most 1e-7 from it (relatively). *)
Theorem C101_value : forall na x, common x -> exists u m e, value_cell na x = (if negative x then chr 45 :: u else u) /\ scan u = S754_finite false m e /\
  close 8 x (S754_finite (negative x) m e).
Proof.
  intros na x C. unfold value_cell. rewrite (common_num x C), (common_above x C). destruct (common_printed 8 x ltac:(lia) C) as (t & [P1 P2 _ (m & e & P3 & _ & P4)]).
  exists (text_of (chr 101) t), m, e. split; [exact P1|]. split.
  - rewrite (scan_nt (chr 101) t (or_introl eq_refl) P2), <- (scan_nt (chr 69) t (or_intror eq_refl) P2). exact P3.
  - rewrite <- P4. apply (stored_common 8 x ltac:(lia) C).
Qed.

(** * Cases *)
Definition smp2 : sample := mkS (mkP 2000 1 "Y") (mkP 2001 1 "Y") 2.
Definition ex_vars : smap (list dbl) := [(S2L "A", [d_dec 125 2; d_na]); (S2L "B_1", [SFopp (d_ofZ 3); d_ofZ 123456789])].
Definition ex_cmts : smap str := [(S2L "A", S2L " rate of" ++ LF :: S2L " A ")].
Example C101_case : sane default_rules /\ separator ";" [] /\ missing_text ";" (S2L "#N/A") /\ selected default_rules ex_vars (map (fun x => (fst x, fst x, snd x)) ex_vars) /\
  list_periods smp2 = Ok [S2L "2000Y1"; S2L "2001Y1"] /\ Forall (fun x => Z.of_nat (length (snd x)) = s_nb smp2) ex_vars /\
  Forall (clean ";") [S2L "code"; S2L "comment"; S2L "2000Y1"; S2L "2001Y1"; S2L "A"; S2L "B_1"] /\
  export_csv default_rules (S2L "#N/A") [";"%char] (Some smp2) ex_vars ex_cmts =
    Ok (S2L "code;comment;2000Y1;2001Y1;" ++ LF :: S2L "A;  rate of A; 1.25;#N/A;" ++ LF :: S2L "B_1; ; -3;1.2345679e+08;" ++ [LF]) /\
  export_rotated default_rules (S2L "#N/A") [";"%char] (Some smp2) ex_vars = Ok (S2L "; A; B_1; " ++ LF :: S2L "2000Y1; 1.25; -3; " ++ LF :: S2L "2001Y1; #N/A; 1.2345679e+08; " ++ [LF]).
Proof.
  assert (SR : sane default_rules) by (repeat (constructor; [vm_compute; repeat split|]); constructor).
  split; [exact SR|]. split; [split; [reflexivity|]; split; [cbn; intuition discriminate|]; split; [intros []|]; split; [cbn; lia|reflexivity]|].
  split; [split; [split; cbn; intuition discriminate|]; split; [cbn; lia|split; reflexivity]|]. split; [repeat (apply Sel_in; [apply (C97_change default_rules _ SR); vm_compute; reflexivity|]); apply Sel_nil|].
  split; [reflexivity|]. split; [repeat constructor|]. split; [repeat (apply Forall_cons; [split; cbn; intuition discriminate|]); apply Forall_nil|]. split; vm_compute; reflexivity.
Qed.
Example C101_dif_case : 1 <= s_nb smp2 /\ Forall (fun p => ~ In LF p) [S2L "2000Y1"; S2L "2001Y1"; S2L "A"; S2L "B_1"; S2L "rate "] /\
  exists f, export_dif default_rules (S2L "NA") (Some smp2) ex_vars [(S2L "A", S2L "rate ")] = Ok f /\
  dif_tuples f = [[S2L "CODE"; S2L "COMMENT"; S2L "2000Y1"; S2L "2001Y1"]; [S2L "A"; S2L "rate"; S2L "1.25"; S2L "NA"]; [S2L "B_1"; []; S2L "-3"; S2L "1.2345679e+08"]].
Proof.
  split; [vm_compute; discriminate|]. split; [repeat (apply Forall_cons; [cbn; intuition discriminate|]); apply Forall_nil|]. eexists. split; vm_compute; reflexivity.
Qed.
Example C101_value_ex : common (d_ofZ 123456789) /\ value_cell [] (d_ofZ 123456789) = S2L "1.2345679e+08".
Proof. split; [|vm_compute; reflexivity]. split; [exact I|]. split; [reflexivity|]. split; [vm_compute; discriminate|]. split; [reflexivity|discriminate]. Qed.
(** 8 digits: two numbers that differ by 1 are written with the same text. *)
Theorem C101_precision_refuted : exists x y, x <> y /\ d_sub y x = d_ofZ 1 /\ value_cell [] x = value_cell [] y.
Proof. exists (d_ofZ 123456789), (d_ofZ 123456790). split; [vm_compute; discriminate|]. split; vm_compute; reflexivity. Qed.
(** A comment with the separator moves all the values of its line. *)
Theorem C101_comment_refuted : exists f, export_csv default_rules [] [";"%char] (Some smp2) ex_vars [(S2L "A", S2L "rate; yearly")] = Ok f /\
  nth 1 (cells_of [";"%char] f) [] = [S2L "A"; S2L "rate"; S2L "yearly"; S2L "1.25"; S2L "#N/A"; []] /\ length (nth 0 (cells_of [";"%char] f) []) = 5%nat.
Proof. eexists. split; [vm_compute; reflexivity|]. split; vm_compute; reflexivity. Qed.
(** A tab as separator becomes a blank: the words of a comment are cells. *)
Theorem C101_tab_refuted : EXP_SEP [chr 9] = [SP] /\ exists f, export_csv default_rules [] [chr 9] (Some smp2) ex_vars [(S2L "A", S2L "the rate")] = Ok f /\
  nth 1 (pieces [LF] f) [] = S2L "A  the rate  1.25 #N/A ".
Proof. split; [reflexivity|]. eexists. split; vm_compute; reflexivity. Qed.
(** With rules that leave variables out, the header of a DIF file announces too many tuples. *)
Theorem C101_tuples_refuted : exists f, export_dif [(S2L "A", S2L "+")] (S2L "NA") (Some smp2) ex_vars [] = Ok f /\
  length (dif_tuples f) = 2%nat /\ nth 7 (pieces [LF] f) [] = S2L "0,3".
Proof. eexists. split; [vm_compute; reflexivity|]. split; vm_compute; reflexivity. Qed.
(** A comment of two lines breaks the DIF file: the values are not where they should be. *)
Theorem C101_dif_comment_refuted : exists f, export_dif [(S2L "A", S2L "+")] (S2L "NA") (Some smp2) ex_vars ex_cmts = Ok f /\
  nth 1 (dif_tuples f) [] <> [S2L "A"; S2L " rate of" ++ LF :: S2L " A"; S2L "1.25"; S2L "NA"].
Proof. eexists. split; [vm_compute; reflexivity|]. vm_compute. discriminate. Qed.
(** Without a file of variables, the workspace is not exported: a sample that is not there is accessed. *)
Theorem C101_workspace_refuted : forall rulefile rs cfile na sep fmt, IMP_readrule rulefile = Ok rs -> fmt = 0 \/ fmt = 1 \/ fmt = 4 ->
  EXP_RuleExport rulefile None cfile na sep fmt = Undefined.
Proof. intros rulefile rs cfile na sep fmt R F. unfold EXP_RuleExport. rewrite R. destruct F as [-> |[-> | ->]]; reflexivity. Qed.

Print Assumptions C101_csv_partial.
Print Assumptions C101_rotated_partial.
Print Assumptions C101_transposed_partial.
Print Assumptions C101_dif_partial.
Print Assumptions C101_value.
Print Assumptions C101_precision_refuted.
Print Assumptions C101_comment_refuted.
Print Assumptions C101_tab_refuted.
Print Assumptions C101_tuples_refuted.
Print Assumptions C101_dif_comment_refuted.
Print Assumptions C101_workspace_refuted.
