(** Lemmas: the lists of the loops, the functions @vcount, @vtake and @vdrop on them. *)
From Coq Require Import ZArith Ascii String List Bool Lia ZifyBool.
From Verif Require Import M_Base M_Names M_Lex M_Kdb M_Grep M_Report S_Report S_Names L_Names L_Kdb L_Time L_Report L_Report2 L_Report3 L_Report4.
Import ListNotations.
Open Scope Z_scope.

(** * Parts of a text *)
Lemma tokens_app p c a b : p c = true -> forall w, tokens p (a ++ c :: b) w = tokens p a w ++ tokens p b [].
Proof.
  intros Hc. induction a as [|d a IH]; intros w; cbn [app tokens].
  - rewrite Hc. destruct (nonempty w); reflexivity.
  - destruct (p d); [|apply IH]. destruct (nonempty w); [cbn [app]; f_equal|]; apply IH.
Qed.
Lemma tokens_word p a : forallb (fun c => negb (p c)) a = true -> forall b w,
  tokens p (a ++ b) w = tokens p b (w ++ a).
Proof.
  induction a as [|c a IH]; intros Ha b w; [rewrite app_nil_r; reflexivity|].
  cbn [forallb] in Ha. apply andb_true_iff in Ha as [Hc Ha]. apply negb_true_iff in Hc.
  cbn [app tokens]. rewrite Hc, IH by exact Ha. rewrite <- app_assoc. reflexivity.
Qed.
Lemma tokens_ext p q s : (forall c, In c s -> p c = q c) -> forall w, tokens p s w = tokens q s w.
Proof.
  induction s as [|c s IH]; intros H w; [reflexivity|]. cbn [tokens]. rewrite (H c) by (left; reflexivity).
  rewrite !IH by (intros d Hd; apply H; right; exact Hd). reflexivity.
Qed.
Lemma tokens_coarse (p q : ascii -> bool) : (forall c, q c = true -> p c = true) -> forall s w,
  flat_map (fun u => tokens p u []) (tokens q s w) = tokens p (w ++ s) [].
Proof.
  intros Hqp. induction s as [|c s IH]; intros w; cbn [tokens].
  - rewrite app_nil_r. destruct w; [reflexivity|]. cbn [nonempty flat_map]. apply app_nil_r.
  - destruct (q c) eqn:Hc.
    + destruct w as [|d w]; cbn [nonempty].
      * rewrite IH. cbn [app tokens]. rewrite (Hqp c Hc). reflexivity.
      * cbn [flat_map]. rewrite IH. rewrite tokens_app by (apply Hqp, Hc). reflexivity.
    + rewrite IH. rewrite <- app_assoc. reflexivity.
Qed.
Lemma tokens_joined p sep l : p sep = true ->
  tokens p (joined sep l) [] = flat_map (fun u => tokens p u []) l.
Proof.
  intros Hs. induction l as [|w [|w' l] IH]; [reflexivity|cbn; rewrite app_nil_r; reflexivity|].
  cbn [joined] in IH |- *. rewrite tokens_app by exact Hs. rewrite IH. reflexivity.
Qed.
Definition clean (p : ascii -> bool) (w : str) : bool := nonempty w && forallb (fun c => negb (p c)) w.
Lemma tokens_clean p s : forall w, forallb (fun c => negb (p c)) w = true -> forallb (clean p) (tokens p s w) = true.
Proof.
  induction s as [|c s IH]; intros w Hw; cbn [tokens].
  - destruct (nonempty w) eqn:Hn; [|reflexivity]. cbn [forallb]. unfold clean. rewrite Hn, Hw. reflexivity.
  - destruct (p c) eqn:Hc.
    + destruct (nonempty w) eqn:Hn; [|apply IH; reflexivity]. cbn [forallb]. unfold clean at 1. rewrite Hn, Hw. apply IH. reflexivity.
    + apply IH. rewrite forallb_app, Hw. cbn. rewrite Hc. reflexivity.
Qed.
Lemma tokens_one p w : clean p w = true -> tokens p w [] = [w].
Proof.
  unfold clean. rewrite andb_true_iff. intros [Hn Hw]. rewrite <- (app_nil_r w) at 1.
  rewrite tokens_word by exact Hw. cbn [app tokens]. rewrite Hn. reflexivity.
Qed.
Lemma tokens_back p sep l : p sep = true -> forallb (clean p) l = true -> tokens p (joined sep l) [] = l.
Proof.
  intros Hs Hl. rewrite tokens_joined by exact Hs. induction l as [|w l IH]; [reflexivity|].
  cbn [forallb] in Hl. apply andb_true_iff in Hl as [Hw Hl]. cbn [flat_map]. rewrite tokens_one by exact Hw.
  cbn [app]. f_equal. apply IH, Hl.
Qed.
Lemma tokens_all (P : ascii -> bool) p s : forall w, forallb P (w ++ s) = true -> forallb (forallb P) (tokens p s w) = true.
Proof.
  induction s as [|c s IH]; intros w H; cbn [tokens].
  - rewrite app_nil_r in H. destruct (nonempty w); cbn [forallb]; rewrite ?H; reflexivity.
  - rewrite forallb_app in H. cbn [forallb] in H. apply andb_true_iff in H as [Hw H]. apply andb_true_iff in H as [Hc H].
    destruct (p c); [destruct (nonempty w); cbn [forallb]; rewrite ?Hw; apply IH; exact H|].
    apply IH. rewrite !forallb_app. cbn [forallb]. rewrite Hw, Hc, H. reflexivity.
Qed.
Lemma tokens_count p s : forall w, (length (tokens p s w) <= length w + length s)%nat.
Proof.
  induction s as [|c s IH]; intros w; cbn [tokens length].
  - destruct w; cbn; lia.
  - destruct (p c).
    + destruct w; cbn [nonempty length]; specialize (IH []); cbn [length] in IH; lia.
    + specialize (IH (w ++ [c])). rewrite app_length in IH. cbn [length] in IH. lia.
Qed.
Lemma joined_all (P : ascii -> bool) sep l : P sep = true -> forallb (forallb P) l = true -> forallb P (joined sep l) = true.
Proof.
  intros Hs. induction l as [|w [|w' l] IH]; intros H; [reflexivity| |].
  - cbn [forallb joined] in *. apply andb_true_iff in H as [H _]. exact H.
  - cbn [forallb] in H. apply andb_true_iff in H as [Hw H]. cbn [joined]. rewrite forallb_app. cbn [forallb].
    rewrite Hw, Hs. cbn [andb]. apply IH. exact H.
Qed.
Lemma mtov_joined l c : mtov l [c] = joined c l.
Proof. induction l as [|w [|w' l] IH]; [reflexivity|reflexivity|]. cbn [mtov joined] in *. rewrite IH. reflexivity. Qed.

(** The functions of the code that cut a text. *)
Lemma tokens_span p s : match snd (span p s) with
  | [] => tokens p s [] = []
  | r => tokens p s [] = let '(w, r') := span (fun c => negb (p c)) r in
                         w :: match r' with [] => [] | _ :: r'' => tokens p r'' [] end
  end.
Proof.
  induction s as [|c s IH]; [reflexivity|]. cbn [span]. destruct (p c) eqn:Hc.
  - destruct (span p s) as [a b]. cbn [snd] in *. cbn [tokens]. rewrite Hc. exact IH.
  - cbn [snd]. clear IH. 
    assert (H : forall s w, w <> [] -> tokens p s w =
      let '(u, r') := span (fun c => negb (p c)) s in (w ++ u) :: match r' with [] => [] | _ :: r'' => tokens p r'' [] end).
    { clear. induction s as [|d s IH]; intros w Hw; cbn [span tokens].
      - rewrite app_nil_r. destruct w; [congruence|reflexivity].
      - destruct (p d) eqn:Hd; cbn [negb].
        + rewrite app_nil_r. destruct w; [congruence|reflexivity].
        + rewrite IH by (destruct w; discriminate). destruct (span _ s) as [u r']. rewrite <- app_assoc. reflexivity. }
    cbn [tokens span]. rewrite Hc. cbn [negb app]. rewrite H by discriminate.
    destruct (span _ s) as [u r']. reflexivity.
Qed.
Lemma span_len p s : (length (snd (span p s)) <= length s)%nat.
Proof.
  induction s as [|c s IH]; [cbn; lia|]. cbn [span]. destruct (p c); [|cbn; lia].
  destruct (span p s) as [a b]. cbn [snd length] in *. lia.
Qed.
Lemma vtoms_tokens seps s : vtoms seps s = tokens (mem seps) s [].
Proof.
  unfold vtoms. assert (H : forall n s, (length s < n)%nat -> vtoms_n n seps s = tokens (mem seps) s []); [|apply H; lia].
  clear. induction n as [|n IH]; intros s Hn; [lia|]. cbn [vtoms_n].
  pose proof (tokens_span (mem seps) s) as Ht. pose proof (span_len (mem seps) s) as Hlen.
  destruct (snd (span (mem seps) s)) as [|c r]; [congruence|].
  pose proof (span_len (fun c => negb (mem seps c)) (c :: r)) as Hl2.
  destruct (span (fun c => negb (mem seps c)) (c :: r)) as [w r'] eqn:Hsp. rewrite Ht.
  destruct r' as [|d r'']; [reflexivity|]. cbn [snd length] in *. f_equal. apply IH. lia.
Qed.
Lemma span_suffix p s : exists a, s = a ++ snd (span p s).
Proof. exists (fst (span p s)). symmetry. apply span_app. Qed.
Lemma vtomsq_tokens seps s : without [34] s = true -> vtomsq seps s = tokens (mem seps) s [].
Proof.
  unfold vtomsq. assert (H : forall n s, (length s < n)%nat -> without [34] s = true -> vtomsq_n n seps s = tokens (mem seps) s []); [|apply H; lia].
  clear. induction n as [|n IH]; intros s Hn Hq; [lia|]. cbn [vtomsq_n].
  pose proof (tokens_span (mem seps) s) as Ht. pose proof (span_len (mem seps) s) as Hlen.
  destruct (span_suffix (mem seps) s) as [a Ha].
  destruct (snd (span (mem seps) s)) as [|c r]; [congruence|].
  assert (Hq2 : without [34] (c :: r) = true).
  { rewrite Ha in Hq. unfold without in *. rewrite forallb_app in Hq. apply andb_true_iff in Hq. apply Hq. }
  pose proof Hq2 as Hq3. unfold without in Hq3. cbn [forallb] in Hq3. apply andb_true_iff in Hq3 as [Hc _].
  apply negb_true_iff, among_false in Hc. cbn in Hc.
  unfold QUOTE. rewrite eqb_code by lia. replace (code c =? 34) with false by lia.
  pose proof (span_len (fun c => negb (mem seps c)) (c :: r)) as Hl2.
  destruct (span_suffix (fun c => negb (mem seps c)) (c :: r)) as [a2 Ha2].
  destruct (span (fun c => negb (mem seps c)) (c :: r)) as [w r'] eqn:Hsp. rewrite Ht.
  destruct r' as [|d r'']; [reflexivity|]. cbn [snd length] in *. f_equal. apply IH; [lia|].
  rewrite Ha2 in Hq2. unfold without in *. rewrite forallb_app in Hq2. cbn [forallb] in Hq2. rewrite !andb_true_iff in Hq2. tauto.
Qed.
Lemma mem_codes l c : (forall z, In z l -> 0 <= z < 256) -> mem (map chr l) c = among c l.
Proof.
  intros H. unfold mem, among. induction l as [|z l IH]; [reflexivity|]. cbn [map existsb].
  rewrite eqb_code by (apply H; left; reflexivity). rewrite IH by (intros; apply H; right; assumption).
  reflexivity.
Qed.

Definition VSEPS : str := [chr 59; chr 44; BLANK].
Lemma elements_vtoms t : vtoms VSEPS t = elements t.
Proof.
  rewrite vtoms_tokens. unfold elements. apply tokens_ext. intros c _.
  apply (mem_codes [59; 44; 32]). cbn. lia.
Qed.

Definition list_text (t : str) : bool := without [40; 34] t.
(** The words of a call on a list. *)
Lemma call_words f pre t : word f = true -> without [34; 40] t = true -> 
  vtomsq [chr 40; chr 44] (f ++ chr 40 :: pre ++ t) = f :: vtomsq [chr 44] (pre ++ t) \/ without [34; 40] pre = false.
Proof.
  intros Hf Ht. destruct (without [34; 40] pre) eqn:Hpre; [left|right; reflexivity].
  assert (Hq : forall u, without [34; 40] u = true -> without [34] u = true).
  { intros u. unfold without. rewrite !forallb_forall. intros H c Hc. specialize (H c Hc).
    apply negb_true_iff, among_false in H. apply negb_true_iff, among_false. cbn in *. lia. }
  assert (Hall : without [34; 40] (pre ++ t) = true) by (unfold without in *; rewrite forallb_app, Hpre, Ht; reflexivity).
  assert (Hfq : without [34] f = true).
  { unfold word in Hf. apply andb_true_iff in Hf as [_ Hf]. unfold without. rewrite forallb_forall in *. intros c Hc.
    specialize (Hf c Hc). apply negb_true_iff, among_false. unfold isalpha, isupper, islower, isdigit in Hf. cbn. lia. }
  rewrite (vtomsq_tokens [chr 44]) by (apply Hq, Hall).
  rewrite vtomsq_tokens.
  2:{ unfold without in *. rewrite forallb_app. cbn [forallb]. rewrite Hfq. apply Hq in Hall. unfold without in Hall. rewrite Hall. reflexivity. }
  rewrite tokens_app by reflexivity.
  assert (Hcl : clean (mem [chr 40; chr 44]) f = true).
  { unfold clean. unfold word in Hf. apply andb_true_iff in Hf as [Hn Hf]. rewrite Hn. cbn [andb].
    rewrite forallb_forall in *. intros c Hc. specialize (Hf c Hc).
    apply negb_true_iff. rewrite (mem_codes [40; 44]) by (cbn; lia). apply among_false.
    unfold isalpha, isupper, islower, isdigit in Hf. cbn. lia. }
  rewrite tokens_one by exact Hcl. cbn [app]. f_equal. apply tokens_ext. intros c Hc.
  rewrite (mem_codes [40; 44]), (mem_codes [44]) by (cbn; lia).
  unfold without in Hall. rewrite forallb_forall in Hall. specialize (Hall c Hc). apply negb_true_iff in Hall.
  unfold among in *. cbn [existsb] in *. lia.
Qed.
Lemma revector_commas t : revector VSEPS (tokens (mem [chr 44]) t []) = elements t.
Proof.
  unfold revector. cbn [firstn VSEPS]. fold VSEPS. rewrite elements_vtoms, mtov_joined. unfold elements.
  rewrite tokens_joined by reflexivity.
  rewrite tokens_coarse; [reflexivity|]. intros c Hc. rewrite (mem_codes [44]) in Hc by (cbn; lia).
  unfold among in *. cbn [existsb] in *. lia.
Qed.

Section Calls.
Context {W : Type} (E : env W).
Notation rep := (rep W).

Lemma fneval_vcount t (s : rep) : r_vseps s = VSEPS -> without [34; 40] t = true ->
  fneval E (S2L "vcount(" ++ t) s = Done (Some (to_string (Z.of_nat (length (elements t))))) s.
Proof.
  intros Hv Ht. unfold fneval. change (S2L "vcount(" ++ t) with (S2L "vcount" ++ chr 40 :: [] ++ t).
  destruct (call_words (S2L "vcount") [] t eq_refl Ht) as [-> |H]; [|discriminate].
  unfold bind, get. change (to_lower (trim (S2L "vcount"))) with (S2L "vcount"). cbn [app].
  change (fn_text (S2L "vcount") ?v ?a) with (Some (Some (Some (to_string (Z.of_nat (length (revector v a))))))).
  rewrite Hv. rewrite vtomsq_tokens.
  2:{ unfold without in *. rewrite forallb_forall in *. intros c Hc. specialize (Ht c Hc).
      apply negb_true_iff, among_false in Ht. apply negb_true_iff, among_false. cbn in *. lia. }
  rewrite revector_commas. reflexivity.
Qed.
Lemma fneval_v1 (t : str) (s : rep) : r_vseps s = VSEPS -> without [34; 40] t = true ->
  exists args, args <> [] /\ vtomsq [chr 40; chr 44] (S2L "vtake(1," ++ t) = S2L "vtake" :: args /\
    vtomsq [chr 40; chr 44] (S2L "vdrop(1," ++ t) = S2L "vdrop" :: args /\
    revector VSEPS args = S2L "1" :: elements t.
Proof.
  intros Hv Ht. exists (vtomsq [chr 44] (S2L "1," ++ t)).
  assert (Hq : without [34] (S2L "1," ++ t) = true).
  { unfold without in *. cbn [app forallb S2L]. change (negb (among (chr 49) [34])) with true.
    change (forallb (fun c => negb (among c [34])) ([chr 49; chr 44] ++ t) = true). cbn [app forallb].
    change (negb (among (chr 49) [34]) && (negb (among (chr 44) [34]))) with true.
    change (negb (among (chr 49) [34])) with true. change (negb (among (chr 44) [34])) with true. cbn [andb].
    rewrite forallb_forall in *. intros c Hc. specialize (Ht c Hc).
    apply negb_true_iff, among_false in Ht. apply negb_true_iff, among_false. cbn in *. lia. }
  assert (Htok : vtomsq [chr 44] (S2L "1," ++ t) = S2L "1" :: tokens (mem [chr 44]) t []).
  { rewrite vtomsq_tokens by exact Hq. change (S2L "1," ++ t) with (S2L "1" ++ chr 44 :: t).
    rewrite tokens_app by reflexivity. reflexivity. }
  split; [rewrite Htok; discriminate|]. split; [|split].
  - change (S2L "vtake(1," ++ t) with (S2L "vtake" ++ chr 40 :: S2L "1," ++ t).
    destruct (call_words (S2L "vtake") (S2L "1,") t eq_refl Ht) as [H|H]; [exact H|discriminate].
  - change (S2L "vdrop(1," ++ t) with (S2L "vdrop" ++ chr 40 :: S2L "1," ++ t).
    destruct (call_words (S2L "vdrop") (S2L "1,") t eq_refl Ht) as [H|H]; [exact H|discriminate].
  - rewrite Htok. unfold revector. cbn [firstn VSEPS]. fold VSEPS. rewrite elements_vtoms, mtov_joined. unfold elements.
    rewrite tokens_joined by reflexivity. cbn [flat_map]. rewrite tokens_coarse; [reflexivity|].
    intros c Hc. rewrite (mem_codes [44]) in Hc by (cbn; lia). unfold among in *. cbn [existsb] in *. lia.
Qed.
Lemma fneval_vtake t e es (s : rep) : r_vseps s = VSEPS -> without [34; 40] t = true -> elements t = e :: es ->
  fneval E (S2L "vtake(1," ++ t) s = Done (Some e) s.
Proof.
  intros Hv Ht He. destruct (fneval_v1 t s Hv Ht) as (args & Hne & Hw & _ & Hr).
  unfold fneval. rewrite Hw. unfold bind, get. change (to_lower (trim (S2L "vtake"))) with (S2L "vtake").
  change (fn_text (S2L "vtake") ?v ?a) with (Some (f_vtake v a)). rewrite Hv. unfold f_vtake.
  destruct args as [|a args]; [congruence|]. rewrite Hr, He. reflexivity.
Qed.
Lemma fneval_vdrop t e es (s : rep) : r_vseps s = VSEPS -> without [34; 40] t = true -> elements t = e :: es ->
  fneval E (S2L "vdrop(1," ++ t) s = Done (Some (joined (chr 59) es)) s.
Proof.
  intros Hv Ht He. destruct (fneval_v1 t s Hv Ht) as (args & Hne & _ & Hw & Hr).
  unfold fneval. rewrite Hw. unfold bind, get. change (to_lower (trim (S2L "vdrop"))) with (S2L "vdrop").
  change (fn_text (S2L "vdrop") ?v ?a) with (Some (f_vdrop v a)). rewrite Hv. unfold f_vdrop.
  destruct args as [|a args]; [congruence|]. rewrite Hr, He.
  change (atoi (S2L "1")) with (Some 1). cbn [Z.ltb Z.compare Z.to_nat Pos.to_nat Pos.iter_op]. cbv zeta.
  change (Z.to_nat 1) with 1%nat. cbn [skipn firstn VSEPS]. rewrite mtov_joined. reflexivity.
Qed.

(** A call in a line. *)
Lemma extractpar_call f a r : word f = true -> without [34; 40; 41] a = true ->
  extractpar (f ++ chr 40 :: a ++ chr 41 :: r) [] O false = Some (f ++ chr 40 :: a, r).
Proof.
  intros Hf Ha.
  assert (H2 : forall a acc, without [34; 40; 41] a = true ->
    extractpar (a ++ chr 41 :: r) acc 1 false = Some (acc ++ a, r)).
  { clear. induction a as [|c a IH]; intros acc H; [cbn; rewrite app_nil_r; reflexivity|].
    unfold without in H. cbn [forallb] in H. apply andb_true_iff in H as [Hc H].
    apply negb_true_iff, among_false in Hc. cbn in Hc. cbn [app extractpar]. unfold is.
    replace (code c =? 34) with false by lia. replace (code c =? 41) with false by lia.
    replace (code c =? 40) with false by lia. cbn [Nat.eqb andb]. rewrite IH by exact H. rewrite <- app_assoc. reflexivity. }
  assert (H1 : forall f acc, forallb word_char f = true ->
    extractpar (f ++ chr 40 :: a ++ chr 41 :: r) acc 0 false = extractpar (a ++ chr 41 :: r) (acc ++ f ++ [chr 40]) 1 false).
  { clear -Ha. induction f as [|c f IH]; intros acc H; [reflexivity|].
    cbn [forallb] in H. apply andb_true_iff in H as [Hc H]. cbn [app extractpar].
    assert (code c <> 34 /\ code c <> 41 /\ code c <> 40) as (N1 & N2 & N3).
    { unfold word_char, isalpha, isupper, islower, isdigit in Hc. lia. }
    unfold is. replace (code c =? 34) with false by lia. replace (code c =? 41) with false by lia.
    replace (code c =? 40) with false by lia. rewrite Hc. cbn [negb andb Nat.eqb].
    rewrite IH by exact H. rewrite <- app_assoc. reflexivity. }
  rewrite H1 by (apply word_chars, Hf). rewrite H2 by exact Ha. rewrite <- app_assoc. cbn [app]. rewrite <- app_assoc. reflexivity.
Qed.
Lemma scan_call m f pre name t v r acc g (s : rep) :
  word f = true -> reads E s g ->
  forallb (piece_ok g) (lits (f ++ chr 40 :: pre) ++ [Ref name]) = true ->
  without [34; 40; 41] (pre ++ wrap PERCENT PERCENT name) = true ->
  g_macro g name = Some t ->
  fneval E (f ++ chr 40 :: pre ++ t) s = Done (Some v) s ->
  scan_all E (level E (S m)) (AT :: f ++ chr 40 :: pre ++ wrap PERCENT PERCENT name ++ chr 41 :: r) acc s =
  scan_all E (level E (S m)) r (acc ++ v) s.
Proof.
  intros Hf G Hp Hw Hm Hv. destruct f as [|d f]; [discriminate|]. cbn [app].
  assert (Hd : Ascii.eqb d AT = false).
  { unfold word in Hf. cbn [nonempty forallb andb] in Hf. apply andb_true_iff in Hf as [Hf _].
    unfold AT. rewrite eqb_code by lia. unfold isalpha, isupper, islower, isdigit in Hf. lia. }
  rewrite scan_at by exact Hd.
  pose proof (extractpar_call (d :: f) (pre ++ wrap PERCENT PERCENT name) r Hf Hw) as Hx.
  rewrite <- app_assoc in Hx. cbn [app] in Hx. rewrite Hx. unfold bind at 1, gfn, bind at 1, inner.
  replace (existsb special (d :: f ++ chr 40 :: pre ++ wrap PERCENT PERCENT name)) with true.
  2:{ symmetry. apply existsb_exists. exists PERCENT. split; [|reflexivity].
      right. apply in_or_app. right. right. apply in_or_app. right. left. reflexivity. }
  change (f_expand (level E (S m))) with (expand_F E (level E m)).
  pose proof (expand_pieces E (level E m) g _ s G Hp) as He.
  rewrite source_app, value_app, source_lits, value_lits in He. unfold source, value in He. cbn [flat_map source1 value1] in He.
  rewrite Hm, !app_nil_r in He. cbn [app] in He. rewrite <- !app_assoc in He. cbn [app] in He. rewrite He.
  cbn [app] in Hv. rewrite Hv. reflexivity.
Qed.
End Calls.
