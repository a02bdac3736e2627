(** Lemmas on exported files. *)
From Coq Require Import ZArith Ascii String List Bool Lia ZifyBool Floats.SpecFloat.
From Verif Require Import M_Base M_Report M_Time M_Names M_Lex M_Compile M_Bytes M_Exec M_Double M_Decimal M_Kdb M_Grep M_Ascii M_Import M_Export
  S_Names S_Grep S_Ascii S_Import S_Export L_Names L_Decimal L_Round3 L_Import T_Import.
Import ListNotations.
Open Scope Z_scope.

(** * Cutting *)
Lemma begins_refl p r : begins p (p ++ r) = true.
Proof. induction p as [|c p IH]; [reflexivity|]. cbn [app begins]. rewrite Ascii.eqb_refl. exact IH. Qed.
Lemma cut_skip sep hold a : forall t, cut sep hold (length a) (a ++ t) = cut sep hold 0 t.
Proof. induction a as [|c a IH]; intros t; [reflexivity|]. cbn [length app cut]. apply IH. Qed.
Lemma cut_piece c s u : forall hold r, ~ In c u -> cut (c :: s) hold 0 (u ++ (c :: s) ++ r) = (rev hold ++ u) :: cut (c :: s) [] 0 r.
Proof.
  induction u as [|d u IH]; intros hold r N.
  - change ([] ++ (c :: s) ++ r) with (c :: (s ++ r)). cbn [cut]. change (c :: s ++ r) with ((c :: s) ++ r). rewrite begins_refl. cbn [length]. rewrite Nat.sub_succ, Nat.sub_0_r, cut_skip, app_nil_r. reflexivity.
  - cbn [app cut begins]. destruct (Ascii.eqb c d) eqn:E; [apply Ascii.eqb_eq in E; subst; exfalso; apply N; left; reflexivity|]. cbn [andb].
    change (u ++ c :: s ++ r) with (u ++ (c :: s) ++ r). rewrite IH by (intros X; apply N; right; exact X). cbn [rev]. rewrite <- app_assoc. reflexivity.
Qed.
Lemma cut_none c s u : forall hold, ~ In c u -> cut (c :: s) hold 0 u = [rev hold ++ u].
Proof.
  induction u as [|d u IH]; intros hold N; [cbn [cut]; rewrite app_nil_r; reflexivity|]. cbn [cut begins].
  destruct (Ascii.eqb c d) eqn:E; [apply Ascii.eqb_eq in E; subst; exfalso; apply N; left; reflexivity|]. cbn [andb].
  rewrite IH by (intros X; apply N; right; exact X). cbn [rev]. rewrite <- app_assoc. reflexivity.
Qed.
Lemma pieces_app c s l r : Forall (fun u => ~ In c u) l -> pieces (c :: s) (flat_map (fun u => u ++ c :: s) l ++ r) = l ++ pieces (c :: s) r.
Proof.
  unfold pieces. induction 1 as [|u l N _ IH]; [reflexivity|]. cbn [flat_map]. rewrite <- !app_assoc.
  rewrite (cut_piece c s u [] _ N). cbn [rev app]. rewrite IH. reflexivity.
Qed.
Lemma pieces_none c s u : ~ In c u -> pieces (c :: s) u = [u].
Proof. intros N. unfold pieces. rewrite cut_none by exact N. reflexivity. Qed.

(** * Blanks *)
Lemma drop_low_blank t : drop_low t = drop_blank t.
Proof. induction t as [|c t IH]; [reflexivity|]. cbn [drop_low drop_blank]. rewrite IH. reflexivity. Qed.
Lemma drop_blank_app a b : Forall (fun c => code c <= 32) a -> drop_blank (a ++ b) = drop_blank b.
Proof. induction 1 as [|c a H _ IH]; [reflexivity|]. cbn [app drop_blank]. replace (code c <=? 32) with true by lia. exact IH. Qed.
Lemma drop_blank_spec t : exists a, t = a ++ drop_blank t /\ Forall (fun c => code c <= 32) a.
Proof.
  induction t as [|c t (a & E & F)]; [exists []; split; [reflexivity|constructor]|]. cbn [drop_blank]. destruct (code c <=? 32) eqn:C.
  - exists (c :: a). split; [cbn [app]; congruence|constructor; [lia|exact F]].
  - exists []. split; [reflexivity|constructor].
Qed.
Lemma drop_blank_none c t : 32 < code c -> drop_blank (c :: t) = c :: t.
Proof. intros H. cbn [drop_blank]. replace (code c <=? 32) with false by lia. reflexivity. Qed.
Lemma drop_blank_comm t : drop_blank (rev (drop_blank (rev t))) = rev (drop_blank (rev (drop_blank t))).
Proof.
  destruct (drop_blank_spec t) as (a & Ea & Fa). remember (drop_blank t) as u eqn:Eu. destruct u as [|x u].
  - rewrite app_nil_r in Ea. subst t. replace (drop_blank (rev a)) with (@nil ascii); [reflexivity|]. rewrite <- (app_nil_r (rev a)), drop_blank_app; [reflexivity|]. apply Forall_rev, Fa.
  - assert (X : 32 < code x). { rewrite Ea, drop_blank_app in Eu by exact Fa. cbn [drop_blank] in Eu. destruct (code x <=? 32) eqn:C; [|lia]. exfalso.
      destruct (drop_blank_spec u) as (b & Eb & _). rewrite <- Eu in Eb. apply (f_equal (@length ascii)) in Eb. rewrite app_length in Eb. cbn [length] in Eb. lia. }
    subst t. rewrite rev_app_distr. cbn [rev]. 
    assert (Y : forall v w, drop_blank (v ++ [x] ++ w) = drop_blank (v ++ [x]) ++ w).
    { clear -X. induction v as [|c v IH]; intros w; cbn [app drop_blank]; [replace (code x <=? 32) with false by lia; reflexivity|].
      destruct (code c <=? 32); [apply IH|]. cbn [app]. rewrite <- app_assoc. reflexivity. }
    rewrite <- app_assoc, Y, rev_app_distr, rev_involutive.
    assert (Z' : exists v, drop_blank (rev u ++ [x]) = v ++ [x]).
    { clear -X. induction (rev u) as [|c v (w & E)]; cbn [app drop_blank]; [exists []; replace (code x <=? 32) with false by lia; reflexivity|].
      destruct (code c <=? 32); [exists w; exact E|exists (c :: v); reflexivity]. }
    destruct Z' as (v & E). rewrite E, drop_blank_app by exact Fa. rewrite rev_app_distr. cbn [rev app]. rewrite drop_blank_none by exact X. reflexivity.
Qed.
Lemma drop_blank_twice t : drop_blank (drop_blank t) = drop_blank t.
Proof.
  induction t as [|c t IH]; [reflexivity|]. cbn [drop_blank]. destruct (code c <=? 32) eqn:C; [exact IH|]. cbn [drop_blank]. rewrite C. reflexivity.
Qed.
Lemma trim_strip t : trim (M_Report.strip t) = trim t.
Proof.
  unfold trim, M_Report.strip. change drop_low with drop_blank. rewrite (drop_blank_comm t), rev_involutive, drop_blank_twice. reflexivity.
Qed.
Lemma trim_blank t : trim (SP :: t) = trim t. Proof. reflexivity. Qed.
Lemma inked_trim t : Forall (fun c => 32 < code c) t -> trim t = t.
Proof.
  intros F. unfold trim. assert (D : forall u, Forall (fun c => 32 < code c) u -> drop_blank u = u) by (intros u H; destruct H as [|c u H _]; [reflexivity|apply drop_blank_none, H]).
  rewrite (D t F), (D (rev t) (Forall_rev F)). apply rev_involutive.
Qed.
Lemma strip_in t x : In x (M_Report.strip t) -> In x t.
Proof.
  unfold M_Report.strip. change drop_low with drop_blank. intros H. apply in_rev in H. destruct (drop_blank_spec (rev t)) as (a & E & _). apply in_rev. rewrite E. apply in_or_app. right. exact H.
Qed.
Lemma strip_last t d : t <> [] -> 32 < code (last t d) -> M_Report.strip t = t.
Proof.
  intros N L. destruct (exists_last N) as (u & x & ->). rewrite last_last in L. unfold M_Report.strip. change drop_low with drop_blank. rewrite rev_app_distr. cbn [rev app].
  rewrite drop_blank_none by exact L. cbn [rev]. rewrite rev_involutive. reflexivity.
Qed.
Lemma effective_text d t x : t <> [] -> (length t <= 10)%nat -> 32 < code (last t x) -> effective d t = t.
Proof.
  intros N L X. unfold effective. rewrite firstn_all2 by exact L. rewrite (strip_last t x N X). destruct t; [congruence|reflexivity].
Qed.

(** * Numbers *)
Definition number_char (c : ascii) : Prop := In c (S2L "0123456789.e+-inf").
Lemma num_c c : existsb (Ascii.eqb c) (S2L "0123456789.e+-inf") = true -> number_char c.
Proof. intros H. apply existsb_exists in H as (x & I & E). apply Ascii.eqb_eq in E. subst x. exact I. Qed.
Lemma digit_number c : isdigit c = true -> number_char c.
Proof.
  unfold isdigit. intros H. assert (E : c = chr (code c)) by (unfold chr, code; now rewrite N2Z.id, ascii_N_embedding).
  assert (X : code c = 48 \/ code c = 49 \/ code c = 50 \/ code c = 51 \/ code c = 52 \/ code c = 53 \/ code c = 54 \/ code c = 55 \/ code c = 56 \/ code c = 57) by lia.
  rewrite E. apply num_c. destruct X as [-> |[-> |[-> |[-> |[-> |[-> |[-> |[-> |[-> | ->]]]]]]]]]; reflexivity.
Qed.
Lemma digits_number t : digits t -> Forall number_char t.
Proof. intros H. eapply Forall_impl; [|exact H]. apply digit_number. Qed.

Lemma number_app a b : Forall number_char a -> Forall number_char b -> Forall number_char (a ++ b).
Proof. intros A B. apply Forall_app. split; assumption. Qed.
Lemma number_firstn n a : Forall number_char a -> Forall number_char (firstn n a).
Proof. intros A. rewrite <- (firstn_skipn n a) in A. apply Forall_app in A. apply A. Qed.
Lemma number_skipn n a : Forall number_char a -> Forall number_char (skipn n a).
Proof. intros A. rewrite <- (firstn_skipn n a) in A. apply Forall_app in A. apply A. Qed.
Lemma number_point i f : Forall number_char i -> Forall number_char f -> Forall number_char (point i f).
Proof.
  intros I F. unfold point. assert (S : Forall number_char (M_Decimal.strip f)).
  { destruct (strip_spec f) as (j & E). rewrite E in F. apply Forall_app in F. apply F. }
  destruct (M_Decimal.strip f) as [|x r]; [exact I|]. apply number_app; [exact I|]. constructor; [apply num_c; reflexivity|exact S].
Qed.
Lemma number_string z : 0 <= z -> Forall number_char (to_string z).
Proof. intros H. apply digits_number, to_string_spec, H. Qed.
Lemma number_exp x : Forall number_char (exp_text x).
Proof.
  unfold exp_text. constructor; [apply num_c; reflexivity|]. constructor; [destruct (x <? 0); apply num_c; reflexivity|].
  pose proof (number_string (Z.abs x) ltac:(lia)). destruct (Z.abs x <? 10); [constructor; [apply num_c; reflexivity|assumption]|assumption].
Qed.
Lemma round_div_nonneg a b : 0 <= a -> 0 < b -> 0 <= round_div a b.
Proof. intros A B. apply (round_div_bound a b B A). Qed.
Lemma digits_of_nonneg p n d : 1 <= p -> 0 <= n -> 0 < d -> 0 <= fst (digits_of p n d).
Proof.
  intros P N D. unfold digits_of. assert (S : forall k, 0 <= fst (scale n d k) /\ 0 < snd (scale n d k)).
  { intros k. unfold scale. destruct (0 <=? k) eqn:E; cbn [fst snd].
    - pose proof (Z.pow_pos_nonneg 10 k ltac:(lia) ltac:(lia)). nia.
    - pose proof (Z.pow_pos_nonneg 10 (- k) ltac:(lia) ltac:(lia)). nia. }
  specialize (S (p - 1 - exp10 n d)). destruct (scale n d (p - 1 - exp10 n d)) as [a b]. cbn [fst snd] in S. pose proof (round_div_nonneg a b (proj1 S) (proj2 S)).
  destruct (round_div a b =? 10 ^ p); cbn [fst]; [apply Z.pow_nonneg; lia|assumption].
Qed.
Lemma number_g p n d : 1 <= p -> 0 <= n -> 0 < d -> Forall number_char (g_text p n d).
Proof.
  intros P N D. unfold g_text. pose proof (digits_of_nonneg p n d P N D) as R. destruct (digits_of p n d) as [r x]. cbn [fst] in R. pose proof (number_string r R) as T.
  destruct ((-4 <=? x) && (x <? p)); [destruct (0 <=? x)|].
  - apply number_point; [apply number_firstn|apply number_skipn]; exact T.
  - apply number_point; [constructor; [apply num_c; reflexivity|constructor]|]. apply number_app; [|exact T]. unfold zeros. clear. induction (Z.to_nat (- x - 1)) as [|k IH]; [constructor|]. constructor; [apply num_c; reflexivity|exact IH].
  - apply number_app; [|apply number_exp]. apply number_point; [apply (number_firstn 1)|apply (number_skipn 1)]; exact T.
Qed.
Lemma number_print x : d_num x = true -> Forall number_char (print_g 8 x).
Proof.
  intros D. assert (Sg : forall s t, Forall number_char t -> Forall number_char (M_Decimal.sign s t)) by (intros [] t H; [constructor; [apply num_c; reflexivity|exact H]|exact H]).
  destruct x as [s|s| |s m e]; cbn [print_g].
  - apply Sg. constructor; [apply num_c; reflexivity|constructor].
  - apply Sg. repeat (constructor; [apply num_c; reflexivity|]); constructor.
  - vm_compute in D. discriminate D.
  - apply Sg. destruct (0 <=? e) eqn:E; apply number_g; try lia.
Qed.
Lemma number_inked t : Forall number_char t -> Forall (fun c => 32 < code c) t.
Proof. apply Forall_impl. intros c H. unfold number_char in H. cbn [S2L list_ascii_of_string In] in H. repeat (destruct H as [<-|H]; [vm_compute; reflexivity|]). contradiction. Qed.
Lemma sqz_inked t : Forall (fun c => 32 < code c) t -> forall n, sqz (repeat SP n ++ t) = t.
Proof.
  intros F n. unfold sqz. rewrite filter_app. replace (filter (fun c => negb (is 32 c)) (repeat SP n)) with (@nil ascii) by (induction n as [|n IH]; [reflexivity|exact IH]). cbn [app].
  induction F as [|c t C _ IH]; [reflexivity|]. cbn [filter]. unfold is at 1. replace (code c =? 32) with false by lia. cbn [negb]. rewrite IH. reflexivity.
Qed.
Lemma written na x : write_value na x = value_cell na x.
Proof.
  unfold write_value, value_cell, lowest. destruct (d_num x) eqn:D; [|reflexivity]. destruct (SFleb x (d_ofZ (- d_pow10 37))); [reflexivity|]. apply sqz_inked, number_inked, number_print, D.
Qed.

(** * Rows *)
Lemma change_iff rs name : sane rs -> (forall m, new_name rs name m -> IMP_change rs name = Ok (Some m)) /\ (no_rule rs name -> IMP_change rs name = Ok None).
Proof. intros S. split; [intros m N; apply C97_change; assumption|intros N; apply C97_change; assumption]. Qed.
Lemma mapM_all {A B} (f : A -> res B) (g : A -> B) l : (forall x, In x l -> f x = Ok (g x)) -> mapM f l = Ok (map g l).
Proof.
  induction l as [|x l IH]; intros H; [reflexivity|]. cbn [mapM]. rewrite (H x (or_introl eq_refl)). cbn [rbind].
  rewrite IH by (intros y I; apply H; right; exact I). reflexivity.
Qed.
Lemma values_read na v n : length v = n -> mapM (value_at na v) (seq 0 n) = Ok (map (value_cell na) v).
Proof.
  intros L. rewrite (mapM_all _ (fun t => value_cell na (nth t v d_na))).
  - f_equal. subst n. rewrite <- map_map with (f := fun t => nth t v d_na). f_equal. clear. induction v as [|x v IH]; [reflexivity|].
    cbn [length seq map nth]. f_equal. rewrite <- seq_shift, map_map. exact IH.
  - intros t I. apply in_seq in I. unfold value_at. rewrite (nth_error_nth' v d_na) by lia. rewrite written. reflexivity.
Qed.
Lemma selected_ok rs vars l : sane rs -> selected rs vars l -> renamed_vars rs vars = Ok l.
Proof.
  intros S H. unfold renamed_vars. assert (E : exists ll, mapM (fun x => do o <- IMP_change rs (fst x); Ok (match o with Some m => [(fst x, m, snd x)] | None => [] end)) vars = Ok ll /\ concat ll = l).
  { induction H as [|n v vars l N _ (ll & E & C)|n m v vars l N _ (ll & E & C)].
    - exists []. split; reflexivity.
    - exists ([] :: ll). cbn [mapM fst snd]. rewrite (proj2 (change_iff rs n S) N). cbn [rbind]. rewrite E. split; [reflexivity|exact C].
    - exists ([(n, m, v)] :: ll). cbn [mapM fst snd]. rewrite (proj1 (change_iff rs n S) m N). cbn [rbind]. rewrite E. split; [reflexivity|]. cbn [concat app]. rewrite C. reflexivity. }
  destruct E as (ll & -> & C). cbn [rbind]. rewrite C. reflexivity.
Qed.
Lemma row_cells c s l : Forall (fun u => ~ In c u) l -> map trim (pieces (c :: s) (flat_map (fun u => u ++ c :: s) l)) = map trim l ++ [[]].
Proof.
  intros F. rewrite <- (app_nil_r (flat_map _ l)), pieces_app by exact F. rewrite map_app. reflexivity.
Qed.
Lemma row_cells_blank c s l : c <> SP -> Forall (fun u => ~ In c u) l -> map trim (pieces (c :: s) (flat_map (fun u => u ++ c :: s) l ++ [SP])) = map trim l ++ [[]].
Proof.
  intros N F. rewrite pieces_app by exact F. rewrite pieces_none by (intros [X|[]]; congruence). rewrite map_app. reflexivity.
Qed.
Lemma file_lines l : Forall (fun u => ~ In LF u) l -> pieces [LF] (flat_map (fun u => u ++ [LF]) l) = l ++ [[]].
Proof. intros F. rewrite <- (app_nil_r (flat_map _ l)), pieces_app by exact F. reflexivity. Qed.
Lemma in_flat (l : list str) s x : In x (flat_map (fun u => u ++ s) l) -> In x s \/ exists u, In u l /\ In x u.
Proof.
  intros H. apply in_flat_map in H as (u & I & X). apply in_app_or in X as [X|X]; [right; exists u; split; assumption|left; exact X].
Qed.
