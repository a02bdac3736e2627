(** Lemmas on generalised samples: the tokens of a printed sample, the periods, the columns. *)
From Coq Require Import ZArith Ascii String List Bool Lia ZifyBool.
From Verif Require Import M_Base M_Time M_Names M_Lex M_Ascii M_Gsample S_Time S_Names S_Gsample L_Time L_Names L_Ascii.
Import ListNotations.
Open Scope Z_scope.

(** * Tokens *)

Definition plain (r : str) (t : ytype) (w : str) (c2 : bool) : gst := mkG (mkY r t w false) c2.
Definition SIGNS : str := S2L "<>:;[]()*-^~+=/".
(** What follows a number or a word in a printed sample. *)
Definition sep (tl : str) : Prop := match tl with [] => True | c :: _ => In c SIGNS end.
Definition num_ends (tl : str) : Prop :=
  match tl with [] => True | c :: _ => isdigit c = false /\ (code c =? 101) = false /\ (code c =? 69) = false /\ (code c =? 46) = false end.
Ltac each H := repeat (destruct H as [<- | H]); [.. | destruct H].
Lemma sep_num tl : sep tl -> num_ends tl.
Proof. destruct tl as [|c r]; [trivial|]. cbn [sep num_ends]. intros H. each H; repeat split. Qed.
Lemma sep_skip tl : sep tl -> skip_spaces tl = tl.
Proof. destruct tl as [|c r]; [trivial|]. cbn [sep]. intros H. each H; reflexivity. Qed.

Lemma gread_plain r t w c2 c r' : skip_spaces r = c :: r' -> (code c =? 47) = false ->
  gread (plain r t w c2) = yread (mkY r t w false).
Proof.
  intros E H. unfold gread, plain. cbn [gc gy reread rest]. rewrite E, orb_false_r. destruct c2; [reflexivity|].
  destruct r' as [|d q]; [reflexivity|]. rewrite H. reflexivity.
Qed.
Lemma read_num_digits s : forall tl, Forall (fun c => isdigit c = true) s -> num_ends tl -> read_num (s ++ tl) false false = (s, false, tl).
Proof.
  induction s as [|c s IH]; intros tl F E.
  - destruct tl as [|d r]; [reflexivity|]. destruct E as (E1 & E2 & E3 & E4). cbn [app read_num]. rewrite E1, E2, E3, E4. reflexivity.
  - inversion F as [|x l Hc Hs]; subst. cbn [app read_num]. rewrite Hc, (IH tl Hs E). reflexivity.
Qed.
Lemma dec_long n : 0 <= n -> long_of (dec_nonneg n) = n.
Proof.
  intros H. unfold long_of. pose proof (dec_nonneg_read n 0 0 [] H) as (k & _ & E & _).
  rewrite app_nil_r in E. rewrite E. cbn [read_digits fst]. lia.
Qed.
Lemma dec_short n : 0 <= n <= 999999999 -> Z.of_nat (length (dec_nonneg n)) < 10.
Proof.
  intros H. pose proof (dec_nonneg_read n 0 0 [] (proj1 H)) as (k & K & _ & L & _ & [B|B]); rewrite L; [|lia].
  destruct (Z_lt_le_dec (Z.of_nat k) 10) as [X|X]; [exact X|].
  exfalso. assert (10 ^ 9 <= 10 ^ (Z.of_nat k - 1)) by (apply Z.pow_le_mono_r; lia). change (10 ^ 9) with 1000000000 in *. lia.
Qed.
Lemma digit_facts c : isdigit c = true -> isspace c = false /\ (code c =? 34) = false /\ (code c =? 39) = false
  /\ (code c =? 36) = false /\ (code c =? 35) = false /\ (code c =? 47) = false.
Proof. unfold isdigit, isspace. lia. Qed.
Lemma glex_num n tl t w c2 : 0 <= n <= 999999999 -> num_ends tl ->
  glex (plain (dec_nonneg n ++ tl) t w c2) = Done (LONG n, plain tl Y_LONG (dec_nonneg n) c2).
Proof.
  intros H E. pose proof (dec_nonneg_digits n (proj1 H)) as D. pose proof (dec_short n H) as L. pose proof (dec_long n (proj1 H)) as V.
  destruct (dec_nonneg_cons n (proj1 H)) as (d & r & Ed & Hd).
  set (x := dec_nonneg n) in *. destruct (digit_facts d Hd) as (A1 & A2 & A3 & A4 & A5 & A6).
  assert (K : skip_spaces (x ++ tl) = d :: r ++ tl) by (rewrite Ed; cbn; rewrite A1; reflexivity).
  unfold glex. cbn [plain gy rest glex_loop].
  change (mkG (mkY (x ++ tl) t w false) c2) with (plain (x ++ tl) t w c2). rewrite (gread_plain _ _ _ _ _ _ K A6).
  unfold yread. cbn [reread rest]. rewrite K, A2, A3, A4, A5, Hd. unfold read_number.
  replace (d :: r ++ tl) with (x ++ tl) by (rewrite Ed; reflexivity). rewrite (read_num_digits x tl D E). cbn [negb andb app].
  replace (Z.of_nat (length x) <? 10) with true by lia. cbn [token ibind text gc plain]. rewrite V. reflexivity.
Qed.

(** The signs of one character: what follows is left alone, but for - and /. *)
Definition follow (c : ascii) (r : str) : Prop :=
  In c SIGNS /\ ((code c =? 45) || (code c =? 47) = true ->
    match r with d :: _ => isspace d = false /\ (code d =? code c) = false /\ (code d =? 42) = false | [] => True end).
Lemma sign_facts c : In c SIGNS -> isspace c = false /\ (code c =? 34) = false /\ (code c =? 39) = false
  /\ (code c =? 36) = false /\ (code c =? 35) = false /\ isdigit c = false /\ scr_is_alpha c || is_us c = false /\ (code c =? 46) = false.
Proof. intros H. each H; repeat split. Qed.
Lemma find_sign_one c r : follow c r -> find_sign c r = (sign_key c, r).
Proof.
  intros (H & F). unfold find_sign. destruct ((code c =? 45) || (code c =? 47)); [|reflexivity].
  destruct r as [|d r']; [reflexivity|]. destruct (F eq_refl) as (F1 & F2 & F3). cbn [skip_spaces]. rewrite F1, F2. reflexivity.
Qed.
Lemma yread_sign c r t w : follow c r -> yread (mkY (c :: r) t w false) = token Y_SPECIAL [c] r.
Proof.
  intros (H & F). destruct (sign_facts c H) as (A1 & A2 & A3 & A4 & A5 & A6 & A7 & A8).
  unfold yread. cbn [reread rest skip_spaces]. rewrite A1, A2, A3, A4, A5, A6, A7, A8.
  destruct (code c =? 47) eqn:E; [|reflexivity]. destruct r as [|d r']; [reflexivity|].
  destruct (F ltac:(rewrite orb_true_r; reflexivity)) as (F1 & F2 & F3). rewrite F3.
  apply Z.eqb_eq in E. rewrite E in F2. rewrite F2. reflexivity.
Qed.
Lemma gread_sign c r t w c2 : follow c r -> gread (plain (c :: r) t w c2) = token Y_SPECIAL [c] r.
Proof.
  intros H. pose proof H as (I & F). destruct (sign_facts c I) as (A1 & _).
  unfold gread, plain. cbn [gc gy reread rest]. rewrite orb_false_r.
  destruct c2; [apply yread_sign; exact H|]. cbn [skip_spaces]. rewrite A1. destruct r as [|d r']; [apply yread_sign; exact H|].
  destruct ((code c =? 47) && (code d =? 47)) eqn:E; [|apply yread_sign; exact H]. reflexivity.
Qed.
Lemma glex_sign c r t w c2 : follow c r -> glex (plain (c :: r) t w c2) = Done (sign_key c, plain r Y_SPECIAL [c] c2).
Proof.
  intros H. unfold glex. cbn [plain gy rest glex_loop].
  change (mkG (mkY (c :: r) t w false) c2) with (plain (c :: r) t w c2). rewrite (gread_sign _ _ _ _ _ H).
  cbn [token ibind text typ rest gc plain]. rewrite (find_sign_one _ _ H). reflexivity.
Qed.
(** The two operators of two characters: // is read without comments. *)
Lemma glex_mdiff r t w c2 : glex (plain (S2L "--" ++ r) t w c2) = Done (OP MDIFF, plain r Y_SPECIAL (S2L "-") c2).
Proof. destruct c2; reflexivity. Qed.
Lemma glex_mgrt r t w : glex (plain (S2L "//" ++ r) t w false) = Done (OP MGRT, plain r Y_SPECIAL (S2L "/") false).
Proof. reflexivity. Qed.
Lemma glex_eof t w c2 : glex (plain [] t w c2) = Done (EOFT, plain [] Y_EOF w c2).
Proof. destruct c2; reflexivity. Qed.

(** The words. *)
Definition word_of (k : gtok) (w : str) : Prop :=
  (k = BOS /\ w = S2L "BOS") \/ (k = EOS /\ w = S2L "EOS") \/ (k = NOW /\ w = S2L "NOW") \/ (k = BOS1 /\ w = S2L "BOS1")
  \/ (k = EOS1 /\ w = S2L "EOS1") \/ (k = NOW1 /\ w = S2L "NOW1") \/ (k = PER /\ w = S2L "PER") \/ (k = SUBPER /\ w = S2L "SUB").
Lemma sep_word tl : sep tl -> word_ends tl.
Proof. intros H c r ->. cbn [sep] in H. each H; reflexivity. Qed.
Lemma glex_word k v tl t w c2 : word_of k v -> sep tl -> glex (plain (v ++ tl) t w c2) = Done (k, plain tl Y_WORD v c2).
Proof.
  intros K E. pose proof (sep_word tl E) as We.
  assert (X : exists c r, v = c :: r /\ word_first c = true /\ forallb is_word_char v = true /\ Z.of_nat (length v) < 10 /\ word_key WORDS v = k).
  { unfold word_of in K. repeat (destruct K as [(-> & ->)|K]; [do 2 eexists; repeat split|]).
    destruct K as (-> & ->). do 2 eexists. repeat split. }
  destruct X as (c & r & Ev & Wf & Wc & L & Wk). destruct (word_first_not c Wf) as (A1 & A2 & A3 & A4 & A5 & A6).
  assert (Q : skip_spaces (v ++ tl) = c :: r ++ tl) by (rewrite Ev; cbn; rewrite A1; reflexivity).
  assert (A7 : (code c =? 47) = false).
  { rewrite <- not_true_iff_false. intros Y. apply Z.eqb_eq in Y. apply (code_eq c 47) in Y; [|lia]. subst c. discriminate Wf. }
  unfold glex. cbn [plain gy rest glex_loop].
  change (mkG (mkY (v ++ tl) t w false) c2) with (plain (v ++ tl) t w c2). rewrite (gread_plain _ _ _ _ _ _ Q A7).
  unfold yread. cbn [reread rest]. rewrite Q, A2, A3, A4, A5, A6. unfold word_first in Wf. rewrite Wf.
  replace (c :: r ++ tl) with (v ++ tl) by (rewrite Ev; reflexivity).
  rewrite span_app; [|exact Wc|exact We]. unfold fits, TEXT_MAX. replace (Z.of_nat (length v) <? 40000) with true by lia.
  cbn [token ibind text gc plain]. rewrite Wk. reflexivity.
Qed.
(** Tokens that are given back. *)
Lemma glex_back_num n tl c2 : 0 <= n -> glex (gunread (plain tl Y_LONG (dec_nonneg n) c2)) = Done (LONG n, plain tl Y_LONG (dec_nonneg n) c2).
Proof.
  intros H. transitivity (@Done (gtok * gst) (LONG (long_of (dec_nonneg n)), plain tl Y_LONG (dec_nonneg n) c2)); [destruct c2; reflexivity|].
  rewrite (dec_long n H). reflexivity.
Qed.
Lemma glex_back_word k v tl c2 : word_of k v -> glex (gunread (plain tl Y_WORD v c2)) = Done (k, plain tl Y_WORD v c2).
Proof.
  intros K. unfold word_of in K.
  repeat (destruct K as [(-> & ->)|K]; [destruct c2; reflexivity|]). destruct K as (-> & ->). destruct c2; reflexivity.
Qed.

(** * Counts and periods *)

(** A state that is about to read [tl]: plainly, or after the first sign of [tl] was given back. *)
Definition at_text (s : gst) (tl : str) : Prop :=
  (exists t w c2, s = plain tl t w c2)
  \/ (exists c r c2, tl = c :: r /\ s = gunread (plain r Y_SPECIAL [c] c2) /\ follow c r)
  \/ (exists w c2, tl = [] /\ s = gunread (plain [] Y_EOF w c2)).
Lemma at_plain tl t w c2 : at_text (plain tl t w c2) tl.
Proof. left. do 3 eexists. reflexivity. Qed.
Lemma glex_at_sign s c r : at_text s (c :: r) -> follow c r ->
  exists c2, glex s = Done (sign_key c, plain r Y_SPECIAL [c] c2).
Proof.
  intros [(t & w & c2 & ->)|[(c' & r' & c2 & E & -> & F)|(w & c2 & E & _)]] H; [| |discriminate E].
  - exists c2. apply glex_sign. exact H.
  - injection E as <- <-. exists c2.
    transitivity (let '(k, q) := find_sign c r in @Done (gtok * gst) (k, plain q Y_SPECIAL [c] c2)); [destruct c2; reflexivity|].
    rewrite (find_sign_one c r H). reflexivity.
Qed.
Lemma glex_at_end s : at_text s [] -> exists w c2, glex s = Done (EOFT, plain [] Y_EOF w c2).
Proof.
  intros [(t & w & c2 & ->)|[(c' & r' & c2 & E & _)|(w & c2 & _ & ->)]]; [|discriminate E|].
  - exists w, c2. apply glex_eof.
  - exists w, c2. destruct c2; reflexivity.
Qed.

Section Env.
Variables (e : genv) (w : world).
Hypothesis D : describes e w.

Lemma desc_sample : exists smp, e_sample e = Some smp /\ s_start smp = w_first w /\ s_end smp = w_last w.
Proof. destruct D as ((nb & E) & _). exists (mkS (w_first w) (w_last w) nb). auto. Qed.
Lemma subs_spec c nb : sub_periods c nb -> subs c = nb.
Proof. intros H. destruct H; reflexivity. Qed.
Lemma valid_subs p : valid_period p -> sub_periods (per p) (subs (per p)) /\ 1 <= step p <= subs (per p) /\ 1 <= subs (per p).
Proof. intros (nb & H & B). rewrite (subs_spec _ _ H). repeat split; [exact H|lia|lia|lia]. Qed.
Lemma shift_further p n : valid_period p -> shift p n = Ok (further p n) /\ valid_period (further p n).
Proof.
  intros V. destruct (valid_subs p V) as (Hs & B & P).
  destruct (shift_spec p n _ Hs B) as (q & E & Ep & Bq & O). unfold ord in O.
  assert (Q : q = further p n).
  { unfold further. set (nb := subs (per p)) in *. set (o := year p * nb + (step p - 1) + n).
    assert (X : o = nb * year q + (step q - 1)) by (unfold o; lia).
    replace (o / nb) with (year q) by (apply (Z.div_unique o nb (year q) (step q - 1)); lia).
    replace (o mod nb + 1) with (step q) by (rewrite <- (Z.mod_unique o nb (year q) (step q - 1)); lia).
    destruct q; cbn in *; subst; reflexivity. }
  subst q. split; [exact E|]. exists (subs (per p)). rewrite Ep. split; [exact Hs|lia].
Qed.
Lemma per_further p n : per (further p n) = per p.
Proof. reflexivity. Qed.
Lemma moved_valid p b n : valid_period p -> 0 <= n -> valid_period (moved p b n).
Proof.
  intros V N. unfold moved. destruct (n =? 0).
  - destruct (valid_subs p V) as (Hs & B & P). exists (subs (per p)). split; [exact Hs|]. cbn [step]. destruct b; lia.
  - apply shift_further; exact V.
Qed.
Lemma now_step : step (w_now w) = match calc_subper e with Done z => z | _ => 0 end /\ calc_subper e = Done (step (w_now w))
  /\ calc_now e = Done (w_now w).
Proof.
  destruct D as ((nb & E) & V1 & V2 & V3 & P & T & DD & L).
  unfold calc_subper, calc_now. rewrite E. cbn [need ibind s_start].
  rewrite T in V3 |- *. unfold today in *. cbn [step] in *.
  assert (R : Z.rem (Z.quot (e_date e) 100) 100 = (e_date e / 100) mod 100).
  { rewrite Z.quot_div_nonneg by lia. apply Z.rem_mod_nonneg; [apply Z.div_pos; lia|lia]. }
  assert (Y : Z.quot (e_date e) 10000 = e_date e / 10000) by (apply Z.quot_div_nonneg; lia).
  rewrite R, Y. pose proof (Z.mod_pos_bound (e_date e / 100) 100 ltac:(lia)) as M.
  set (m := (e_date e / 100) mod 100) in *. clearbody m.
  destruct V3 as (n3 & H3 & B3). cbn [per step] in H3, B3. pose proof (valid_subs _ V1) as (_ & B1 & _).
  set (c := per (w_first w)) in *. clearbody c.
  assert (X : c = "Y"%char \/ c = "Q"%char \/ c = "M"%char \/ c = "W"%char) by (cbn in L; intuition).
  destruct X as [-> | [-> | [-> | ->]]]; cbn -[Z.div Z.quot Z.add Z.sub] in B1, B3, H3 |- *.
  - assert (step (w_first w) = 1) as -> by lia. auto.
  - assert (Q : 1 + Z.quot (m - 1) 3 = (m + 2) / 3).
    { rewrite Z.quot_div_nonneg by lia. replace (m + 2) with (m - 1 + 1 * 3) by lia. rewrite Z.div_add; lia. }
    rewrite Q. auto.
  - auto.
  - inversion H3; subst. replace (e_week e =? 0) with false by lia. auto.
Qed.
Lemma count_nonneg n : wf_count n -> 0 <= v_count w n.
Proof.
  destruct D as (_ & V1 & _ & V3 & _). destruct n; cbn [wf_count v_count]; intros H; [lia| |].
  - destruct (valid_subs _ V1) as (_ & _ & X). lia.
  - destruct (valid_subs _ V3) as (_ & X & _). lia.
Qed.

Definition tok_of (n : count) : gtok := match n with Num n => LONG n | PerYear => PER | SubNow => SUBPER end.
Definition typ_of (n : count) : ytype := match n with Num n => Y_LONG | _ => Y_WORD end.
Lemma glex_count n tl t v c2 : wf_count n -> sep tl ->
  glex (plain (p_count n ++ tl) t v c2) = Done (tok_of n, plain tl (typ_of n) (p_count n) c2)
  /\ glex (gunread (plain tl (typ_of n) (p_count n) c2)) = Done (tok_of n, plain tl (typ_of n) (p_count n) c2).
Proof.
  intros W S. destruct n as [n| |]; cbn [p_count tok_of typ_of].
  - cbn [wf_count] in W. split; [apply glex_num; [exact W|apply sep_num; exact S]|apply glex_back_num; lia].
  - split; [apply glex_word; [|exact S]|apply glex_back_word]; unfold word_of; intuition.
  - split; [apply glex_word; [|exact S]|apply glex_back_word]; unfold word_of; intuition.
Qed.
Lemma of_token n s1 s : glex s = Done (tok_of n, s1) -> read_long_per e s = Done (v_count w n, s1).
Proof.
  intros E. unfold read_long_per. rewrite E. cbn [ibind]. destruct n; cbn [tok_of v_count]; [reflexivity| |].
  - destruct desc_sample as (smp & Es & E1 & _). rewrite Es. cbn [need ibind]. rewrite E1.
    destruct D as (_ & V1 & _). destruct (valid_subs _ V1) as (Hs & _). rewrite (sub_nb _ _ Hs). reflexivity.
  - destruct now_step as (_ & -> & _). reflexivity.
Qed.
Lemma read_count n tl t v c2 : wf_count n -> sep tl ->
  read_long_per e (plain (p_count n ++ tl) t v c2) = Done (v_count w n, plain tl (typ_of n) (p_count n) c2).
Proof. intros W S. apply of_token. apply glex_count; assumption. Qed.

(** What follows a period: no shift. *)
Definition stop (tl : str) : Prop := sep tl /\ match tl with [] => True | c :: _ => (code c =? 60) = false /\ (code c =? 62) = false end.
Lemma moves_sep l tl : sep tl -> sep (p_moves l ++ tl).
Proof. intros H. destruct l as [|[[|] n] l]; [exact H| |]; cbn; auto. Qed.
Lemma getch_at tl t v c2 : getch (plain tl t v c2) = match tl with c :: r => (Some c, plain r t v c2) | [] => (None, plain [] t v c2) end.
Proof. destruct tl; reflexivity. Qed.
Lemma gskip_at tl t v c2 : sep tl -> gskip (plain tl t v c2) = plain tl t v c2.
Proof. intros H. unfold gskip, plain. cbn [gy rest typ text reread gc]. rewrite (sep_skip tl H). reflexivity. Qed.
Lemma read_shifts_ok l : forall fuel p tl t v c2, Forall (fun m => wf_count (snd m)) l -> valid_period p -> stop tl -> (length (p_moves l) < fuel)%nat ->
  exists t' v', (let '(c, s) := getch (plain (p_moves l ++ tl) t v c2) in read_shifts fuel e p c s)
    = gret (fold_left (fun q '(b, n) => moved q b (v_count w n)) l p) (plain tl t' v' c2)
  /\ valid_period (fold_left (fun q '(b, n) => moved q b (v_count w n)) l p)
  /\ per (fold_left (fun q '(b, n) => moved q b (v_count w n)) l p) = per p.
Proof.
  induction l as [|[b n] l IH]; intros fuel p tl t v c2 F V S L.
  - cbn [p_moves flat_map app fold_left]. destruct fuel as [|k]; [cbn in L; lia|]. exists t, v. rewrite getch_at.
    destruct S as (S1 & S2). destruct tl as [|c r]; [auto|]. destruct S2 as (S2 & S3). cbn [read_shifts]. rewrite S2, S3. auto.
  - inversion F as [|x y F1 F2]; subst. cbn [snd] in F1.
    assert (Q : p_moves ((b, n) :: l) ++ tl = p_sign b ++ p_count n ++ p_moves l ++ tl).
    { unfold p_moves. cbn [flat_map]. rewrite <- !app_assoc. reflexivity. }
    rewrite Q. pose proof (count_nonneg n F1) as N0.
    destruct fuel as [|k]; [lia|].
    assert (L' : (length (p_moves l) < k)%nat).
    { unfold p_moves in L |- *. cbn [flat_map] in L. rewrite !app_length in L. destruct b; cbn [p_sign S2L length] in L; cbn in L; lia. }
    pose proof (moved_valid p b (v_count w n) V N0) as V'.
    destruct (IH k (moved p b (v_count w n)) tl (typ_of n) (p_count n) c2 F2 V' S L') as (t' & v' & E & Vf & Pf).
    exists t', v'. rewrite getch_at.
    assert (P1 : per (moved p b (v_count w n)) = per p) by (unfold moved; destruct (v_count w n =? 0); reflexivity).
    split; [|split; [exact Vf|rewrite <- P1; exact Pf]].
    assert (Mv : (try q <- (if v_count w n =? 0 then
                    if 0 <? (if b then -1 else 1) then try nb <- of_res (nb_per_year (per p)); Done (first_step p nb) else Done (first_step p 1)
                  else of_res (shift p ((if b then -1 else 1) * v_count w n))); Done q) = Done (moved p b (v_count w n))).
    { unfold moved. destruct (v_count w n =? 0).
      - destruct b; cbn [Z.ltb Z.compare ibind]; [reflexivity|]. destruct (valid_subs p V) as (Hs & _). rewrite (sub_nb _ _ Hs). reflexivity.
      - replace ((if b then -1 else 1) * v_count w n) with (if b then - v_count w n else v_count w n) by (destruct b; lia).
        rewrite (proj1 (shift_further p _ V)). reflexivity. }
    assert (Sm : sep (p_moves l ++ tl)) by (apply moves_sep; apply S).
    destruct b; cbn [p_sign S2L app list_ascii_of_string].
    + cbn [read_shifts]. change (code "<" =? 60) with true. cbv iota.
      rewrite (read_count n _ t v c2 F1 Sm). cbn [ibind]. replace (v_count w n <? 0) with false by lia.
      match goal with |- context [ibind ?A _] => destruct A as [q| | |]; cbn [ibind] in Mv; try discriminate Mv end.
      assert (q = moved p true (v_count w n)) as -> by (injection Mv; auto). cbn [ibind].
      rewrite (gskip_at _ _ _ _ Sm). exact E.
    + cbn [read_shifts]. change (code ">" =? 60) with false. change (code ">" =? 62) with true. cbv iota.
      rewrite (read_count n _ t v c2 F1 Sm). cbn [ibind]. replace (v_count w n <? 0) with false by lia.
      match goal with |- context [ibind ?A _] => destruct A as [q| | |]; cbn [ibind] in Mv; try discriminate Mv end.
      assert (q = moved p false (v_count w n)) as -> by (injection Mv; auto). cbn [ibind].
      rewrite (gskip_at _ _ _ _ Sm). exact E.
Qed.
Definition tok_anchor (a : anchor) : gtok :=
  match a with AYear y => LONG y | ABos => BOS | AEos => EOS | ANow => NOW | ABos1 => BOS1 | AEos1 => EOS1 | ANow1 => NOW1 end.
Definition typ_anchor (a : anchor) : ytype := match a with AYear y => Y_LONG | _ => Y_WORD end.
Lemma letter_facts c : letter c -> num_ends [c] /\ (exists nb, sub_periods (toupper c) nb)
  /\ per_count (if (97 <=? code c) && (code c <=? 122) then chr (code c - 32) else c) = Some (subs (toupper c))
  /\ (if (97 <=? code c) && (code c <=? 122) then chr (code c - 32) else c) = toupper c.
Proof. intros H. unfold letter in H. each H; (split; [repeat split|split; [eexists; constructor|split; reflexivity]]). Qed.
Lemma glex_anchor p tl t v c2 : wf_per p -> sep tl ->
  let s1 := plain (p_sub (gsub p) ++ p_moves (gmoves p) ++ tl) (typ_anchor (ga p)) (p_anchor (ga p)) c2 in
  glex (plain (p_per p ++ tl) t v c2) = Done (tok_anchor (ga p), s1) /\ glex (gunread s1) = Done (tok_anchor (ga p), s1).
Proof.
  intros (W1 & W2 & W3) S. cbv zeta. unfold p_per. rewrite <- !app_assoc.
  assert (Sm : sep (p_moves (gmoves p) ++ tl)) by (apply moves_sep; exact S).
  assert (N : num_ends (p_sub (gsub p) ++ p_moves (gmoves p) ++ tl)).
  { destruct (gsub p) as [[c z]|]; [|apply sep_num; exact Sm]. destruct W2 as (Hl & _). apply letter_facts in Hl as (X & _). exact X. }
  destruct (ga p) as [y| | | | | |]; cbn [tok_anchor typ_anchor p_anchor].
  1: { split; [apply glex_num; assumption|apply glex_back_num; lia]. }
  all: rewrite W1; cbn [p_sub app]; split; [apply glex_word; [|exact Sm]|apply glex_back_word]; unfold word_of; intuition.
Qed.
Lemma valid_first p : valid_period p -> valid_period (in_first p).
Proof. intros (nb & H & B). exists nb. cbn [in_first per step]. split; [exact H|lia]. Qed.
Lemma anchor_valid a : valid_period (v_anchor w a).
Proof.
  destruct D as (_ & V1 & V2 & V3 & _). destruct a; cbn [v_anchor]; try assumption; try (apply valid_first; assumption).
  exists 1. split; [constructor|cbn; lia].
Qed.
Lemma sign_not_letter c : In c SIGNS -> per_count (if (97 <=? code c) && (code c <=? 122) then chr (code c - 32) else c) = None.
Proof. intros H. each H; reflexivity. Qed.
Lemma read_gper_ok p tl s t v c2 : wf_per p -> stop tl ->
  glex s = Done (tok_anchor (ga p), plain (p_sub (gsub p) ++ p_moves (gmoves p) ++ tl) t v c2) ->
  exists t' v', read_gper e s = gret (v_per w p) (plain tl t' v' c2) /\ valid_period (v_per w p).
Proof.
  intros (W1 & W2 & W3) St E. unfold read_gper. rewrite E. cbn [ibind].
  set (k := plain (p_sub (gsub p) ++ p_moves (gmoves p) ++ tl) t v c2).
  assert (Q : forall K : option period -> gio period,
     (try start <- match tok_anchor (ga p) with
         | LONG z => Done (Some (mkP (if z <? 50 then z + 2000 else if z <? 200 then z + 1900 else z) 1 (chr 89)))
         | EOS => try smp <- need (e_sample e); Done (Some (s_end smp))
         | EOS1 => try smp <- need (e_sample e); Done (Some (first_step (s_end smp) 1))
         | BOS => try smp <- need (e_sample e); Done (Some (s_start smp))
         | BOS1 => try smp <- need (e_sample e); Done (Some (first_step (s_start smp) 1))
         | NOW => try p <- calc_now e; Done (Some p)
         | NOW1 => try p <- calc_now e; Done (Some (first_step p 1))
         | _ => Done None
         end; K start) = K (Some (v_anchor w (ga p)))).
  { intros K. destruct desc_sample as (smp & Es & E1 & E2). destruct now_step as (_ & _ & En).
    destruct (ga p) as [y| | | | | |]; cbn [tok_anchor v_anchor]; rewrite ?Es, ?En; cbn [need ibind]; rewrite ?E1, ?E2; try reflexivity.
    f_equal. f_equal. unfold full_year. destruct (y <? 50); [f_equal; lia|]. destruct (y <? 200); [f_equal; lia|reflexivity]. }
  rewrite Q. unfold k. clear Q k.
  pose proof (anchor_valid (ga p)) as Va. unfold v_per.
  destruct (gsub p) as [[c z]|] eqn:Eg; cbn [p_sub].
  - destruct W2 as (Hl & Hz). destruct (letter_facts c Hl) as (L1 & (nb & L2) & L3 & L4).
    cbn [app]. rewrite getch_at. rewrite L3.
    assert (Sm : sep (p_moves (gmoves p) ++ tl)) by (apply moves_sep; apply St).
    assert (Hn : subs (toupper c) = nb) by (apply subs_spec; exact L2).
    assert (Z9 : 0 <= z <= 999999999) by (destruct L2; lia).
    rewrite (glex_num z _ _ _ _ Z9 (sep_num _ Sm)). cbn [ibind].
    replace (z <? 1) with false by lia. replace (subs (toupper c) <? z) with false by lia. cbn [orb].
    rewrite (gskip_at _ _ _ _ Sm). rewrite L4.
    assert (Vp : valid_period (mkP (year (v_anchor w (ga p))) z (toupper c))) by (exists nb; cbn [per step]; split; [exact L2|lia]).
    pose proof (getch_at (p_moves (gmoves p) ++ tl) Y_LONG (dec_nonneg z) c2) as G.
    destruct (getch (plain (p_moves (gmoves p) ++ tl) Y_LONG (dec_nonneg z) c2)) as [d s4] eqn:E4.
    assert (F : (length (p_moves (gmoves p)) < S (S (length (rest (gy s4)))))%nat).
    { assert (X : (length (p_moves (gmoves p) ++ tl) <= S (length (rest (gy s4))))%nat).
      { destruct (p_moves (gmoves p) ++ tl); injection G as _ ->; cbn; lia. }
      rewrite app_length in X. lia. }
    destruct (read_shifts_ok (gmoves p) _ _ tl Y_LONG (dec_nonneg z) c2 W3 Vp St F) as (t' & v' & R & Vf & _).
    rewrite E4 in R. exists t', v'. split; [exact R|exact Vf].
  - cbn [app].
    assert (Sm : sep (p_moves (gmoves p) ++ tl)) by (apply moves_sep; apply St).
    pose proof (getch_at (p_moves (gmoves p) ++ tl) t v c2) as G.
    destruct (getch (plain (p_moves (gmoves p) ++ tl) t v c2)) as [d s4] eqn:E4.
    assert (F : (length (p_moves (gmoves p)) < S (S (length (rest (gy s4)))))%nat).
    { assert (X : (length (p_moves (gmoves p) ++ tl) <= S (length (rest (gy s4))))%nat).
      { destruct (p_moves (gmoves p) ++ tl); injection G as _ ->; cbn; lia. }
      rewrite app_length in X. lia. }
    destruct (read_shifts_ok (gmoves p) _ _ tl t v c2 W3 Va St F) as (t' & v' & R & Vf & _).
    rewrite E4 in R. exists t', v'. split; [|exact Vf]. rewrite <- R.
    destruct (p_moves (gmoves p) ++ tl) as [|c r]; injection G as -> ->; [reflexivity|].
    cbn [sep] in Sm. rewrite (sign_not_letter c Sm). reflexivity.
Qed.
(** What follows an item or a suffix; what follows a period without a shift. *)
Definition nxt (tl : str) : Prop := match tl with [] => True | c :: _ => In c (S2L ":[;)<>") end.
Definition brk (tl : str) : Prop := match tl with [] => True | c :: _ => In c (S2L ":[;)") end.
Lemma brk_nxt tl : brk tl -> nxt tl.
Proof. destruct tl; cbn; intuition. Qed.
Lemma nxt_sep tl : nxt tl -> sep tl.
Proof. destruct tl as [|c r]; [trivial|]. cbn [nxt sep]. intros H. each H; cbn; intuition. Qed.
Lemma brk_stop tl : brk tl -> stop tl.
Proof. intros H. split; [apply nxt_sep, brk_nxt, H|]. destruct tl as [|c r]; [trivial|]. cbn [brk] in H. each H; auto. Qed.
Lemma nxt_follow c r : In c (S2L ":[;)<>") -> follow c r.
Proof. intros H. split; [exact (nxt_sep (c :: r) H)|]. each H; discriminate. Qed.
(** The token that follows is given back. *)
Lemma glex_nxt tl t v c2 : nxt tl -> exists k s, glex (plain tl t v c2) = Done (k, s) /\ at_text (gunread s) tl
  /\ match k with OP _ | STAR => False | _ => True end.
Proof.
  intros H. destruct tl as [|c r].
  - exists EOFT, (plain [] Y_EOF v c2). rewrite glex_eof. split; [reflexivity|split; [|exact I]]. right. right. do 2 eexists. auto.
  - pose proof (nxt_follow c r H) as F. exists (sign_key c), (plain r Y_SPECIAL [c] c2). rewrite (glex_sign _ _ _ _ _ F).
    split; [reflexivity|split].
    + right. left. do 3 eexists. auto.
    + cbn [nxt] in H. each H; exact I.
Qed.

(** * Columns *)

Definition okc (c : col) : Prop :=
  valid_period (per0 c) /\ (opy c <> NOP -> valid_period (per1 c) /\ per (per1 c) = per (per0 c)) /\ (fnb0 c = 0 <-> opf c = None).

Lemma read_y_one p tl s t v c2 : wf_per p -> brk tl ->
  glex s = Done (tok_anchor (ga p), plain (p_sub (gsub p) ++ p_moves (gmoves p) ++ tl) t v c2) ->
  exists s' l, read_y e s = gret l s' /\ at_text s' tl /\ map view l = [mkV NOP (v_per w p) None None] /\ Forall okc l.
Proof.
  intros W B E. destruct (read_gper_ok p tl s t v c2 W (brk_stop tl B) E) as (t' & v' & R & V).
  unfold read_y. rewrite R. unfold gret at 1, gbind at 1. cbn [ibind].
  destruct (glex_nxt tl t' v' false (brk_nxt tl B)) as (k & s' & G & A & K).
  cbn [plain gy]. change (mkG (mkY tl t' v' false) false) with (plain tl t' v' false). rewrite G. cbn [ibind].
  exists (gunread s'), [mkC NOP (v_per w p) period0 None 0 0].
  split; [destruct k; (reflexivity || contradiction)|]. split; [exact A|]. split; [reflexivity|].
  constructor; [|constructor]. split; [exact V|]. split; [cbn; intuition|cbn; intuition].
Qed.
Lemma per_head p : wf_per p -> exists c r, p_per p = c :: r /\ (isdigit c = true \/ In c (S2L "BENPS")).
Proof.
  intros (W & _). unfold p_per. destruct (ga p) as [y| | | | | |]; cbn [p_anchor].
  - destruct (dec_nonneg_cons y ltac:(lia)) as (d & r & -> & H). cbn [app]. eauto.
  - do 2 eexists. split; [reflexivity|]. right. cbn. auto.
  - do 2 eexists. split; [reflexivity|]. right. cbn. auto.
  - do 2 eexists. split; [reflexivity|]. right. cbn. auto.
  - do 2 eexists. split; [reflexivity|]. right. cbn. auto.
  - do 2 eexists. split; [reflexivity|]. right. cbn. auto.
  - do 2 eexists. split; [reflexivity|]. right. cbn. auto.
Qed.
Lemma follow_head c d r : In c SIGNS -> (isdigit d = true \/ In d (S2L "BENPS")) -> follow c (d :: r).
Proof.
  intros H K. split; [exact H|]. intros X. destruct K as [K|K].
  - destruct (digit_facts d K) as (A1 & _). split; [exact A1|]. unfold isdigit in K. lia.
  - assert (Y : isspace d = false /\ 60 <= code d) by (each K; cbn; (split; [reflexivity|lia])).
    destruct Y as (Y1 & Y2). split; [exact Y1|]. lia.
Qed.
Lemma glex_op o tl t v : o <> NOP -> (exists d r, tl = d :: r /\ (isdigit d = true \/ In d (S2L "BENPS"))) ->
  exists t' v', glex (plain (p_op o ++ tl) t v false) = Done (OP o, plain tl t' v' false).
Proof.
  intros N (d & r & -> & H).
  assert (X : forall c, In c SIGNS -> sign_key c = OP o -> p_op o = [c] ->
     exists t' v', glex (plain (p_op o ++ d :: r) t v false) = Done (OP o, plain (d :: r) t' v' false)).
  { intros c I K P. rewrite P. exists Y_SPECIAL, [c]. cbn [app]. rewrite (glex_sign _ _ _ _ _ (follow_head c d r I H)), K. reflexivity. }
  destruct o; [congruence|..].
  - apply (X "-"%char); cbn; auto 20.
  - do 2 eexists. apply glex_mdiff.
  - apply (X "^"%char); cbn; auto 20.
  - apply (X "/"%char); cbn; auto 20.
  - do 2 eexists. apply glex_mgrt.
  - apply (X "+"%char); cbn; auto 20.
  - apply (X "="%char); cbn; auto 20.
Qed.
Lemma read_y_two p o q tl s t v c2 : wf_per p -> wf_per q -> o <> NOP -> per (v_per w p) = per (v_per w q) -> brk tl ->
  glex s = Done (tok_anchor (ga p), plain (p_sub (gsub p) ++ p_moves (gmoves p) ++ p_op o ++ p_per q ++ tl) t v c2) ->
  exists s' l, read_y e s = gret l s' /\ at_text s' tl /\ map view l = [mkV o (v_per w p) (Some (v_per w q)) None] /\ Forall okc l.
Proof.
  intros W W' N Pp B E.
  assert (St : stop (p_op o ++ p_per q ++ tl)) by (destruct o; [congruence|..]; split; cbn; auto 20).
  destruct (read_gper_ok p _ s t v c2 W St E) as (t' & v' & R & V).
  unfold read_y. rewrite R. unfold gret at 1, gbind at 1. cbn [ibind plain gy gc].
  destruct (glex_op o (p_per q ++ tl) t' v' N) as (t1 & v1 & G).
  { destruct (per_head q W') as (d & r & -> & H). do 2 eexists. split; [reflexivity|exact H]. }
  change (mkG (mkY (p_op o ++ p_per q ++ tl) t' v' false) false) with (plain (p_op o ++ p_per q ++ tl) t' v' false).
  rewrite G. cbn [ibind plain gy].
  change (mkG (mkY (p_per q ++ tl) t1 v1 false) c2) with (plain (p_per q ++ tl) t1 v1 c2).
  destruct (glex_anchor q tl t1 v1 c2 W' (nxt_sep tl (brk_nxt tl B))) as (G2 & _).
  destruct (read_gper_ok q tl _ _ _ _ W' (brk_stop tl B) G2) as (t2 & v2 & R2 & V2).
  exists (plain tl t2 v2 c2), [mkC o (v_per w p) (v_per w q) None 0 0].
  split; [rewrite R2; destruct o; [congruence|..]; reflexivity|].
  split; [apply at_plain|]. split; [destruct o; [congruence|..]; reflexivity|].
  constructor; [|constructor]. split; [exact V|]. split; [intros _; split; [exact V2|symmetry; exact Pp]|cbn; intuition].
Qed.

(** Shifts of columns. *)
Lemma moved_per p b n : per (moved p b n) = per p.
Proof. unfold moved. destruct (n =? 0); reflexivity. Qed.
Lemma view_op c : v_op (view c) = opy c.
Proof. reflexivity. Qed.
Lemma shift_cols_ok b n l : Forall okc l -> 0 <= n -> (b = true -> n = 0 \/ (length l <= 1)%nat) ->
  exists l', shift_cols b n l = Ok l' /\ map view l' = map (map_pers (fun p => moved p b n)) (map view l) /\ Forall okc l' /\ length l' = length l.
Proof.
  induction l as [|c l IH]; intros F N H.
  - exists []. auto.
  - inversion F as [|x y (V0 & V1 & V2) F']; subst.
    destruct (valid_subs _ V0) as (Hs0 & B0 & P0).
    cbn [shift_cols]. destruct (n =? 0) eqn:En.
    + apply Z.eqb_eq in En. subst n. destruct (IH F' N ltac:(auto)) as (l' & E & M & Fl & Len).
      assert (X : (if b then Ok 1 else nb_per_year (per (per0 c))) = Ok (if b then 1 else subs (per (per0 c)))).
      { destruct b; [reflexivity|]. apply (sub_nb _ _ Hs0). }
      rewrite X. cbn [rbind]. rewrite E. cbn [rbind].
      eexists. split; [reflexivity|]. cbn [map length]. rewrite M, Len. split; [|split; [|reflexivity]].
      * f_equal. unfold view, map_pers, moved, first_step. cbn [opy per0 per1 opf fnb0 fnb1 v_op v_0 v_1 v_files Z.eqb].
        f_equal. destruct (opy c) eqn:Eo; [reflexivity|..]; cbn [option_map];
          assert (X1 : per (per1 c) = per (per0 c)) by (apply V1; congruence); rewrite X1; reflexivity.
      * constructor; [|exact Fl]. split; [|split; [|exact V2]].
        -- exists (subs (per (per0 c))). cbn [per0 per step first_step]. split; [exact Hs0|]. destruct b; lia.
        -- intros Ho. cbn [opy] in Ho. destruct (V1 Ho) as (V1a & V1b). cbn [per0 per1 per step first_step]. split; [|exact V1b].
           exists (subs (per (per0 c))).
           change (sub_periods (per (per1 c)) (subs (per (per0 c))) /\ 1 <= (if b then 1 else subs (per (per0 c))) <= subs (per (per0 c))).
           rewrite V1b. split; [exact Hs0|]. destruct b; lia.
    + set (nb := if b then - n else n).
      assert (Y : exists l', shift_cols b nb l = Ok l' /\ map view l' = map (map_pers (fun p => moved p b n)) (map view l) /\ Forall okc l' /\ length l' = length l).
      { destruct b; [|apply IH; [exact F'|exact N|discriminate]].
        destruct (H eq_refl) as [H'|H']; [lia|]. destruct l; [|cbn in H'; lia]. exists []. auto. }
      destruct Y as (l' & E & M & Fl & Len).
      assert (Mv : forall p, valid_period p -> shift p nb = Ok (moved p b n) /\ valid_period (moved p b n)).
      { intros p Vp. unfold moved. rewrite En. apply shift_further. exact Vp. }
      rewrite (proj1 (Mv _ V0)). cbn [rbind].
      assert (Q : (match opy c with NOP => Ok (per1 c) | _ => shift (per1 c) nb end)
        = Ok (match opy c with NOP => per1 c | _ => moved (per1 c) b n end)).
      { destruct (opy c) eqn:Eo; [reflexivity|..]; apply Mv; apply V1; congruence. }
      rewrite Q. cbn [rbind]. rewrite E. cbn [rbind]. eexists. split; [reflexivity|]. cbn [map length]. rewrite M, Len.
      split; [|split; [|reflexivity]].
      * f_equal. unfold view, map_pers. cbn [opy per0 per1 opf fnb0 fnb1 v_op v_0 v_1 v_files].
        f_equal. destruct (opy c); reflexivity.
      * constructor; [|exact Fl]. split; [apply Mv; exact V0|split; [|exact V2]]. cbn [opy per0 per1].
        intros Ho. destruct (V1 Ho) as (V1a & V1b). destruct (opy c); [congruence|..];
          (split; [apply Mv; exact V1a|rewrite !moved_per; exact V1b]).
Qed.

(** Copies of columns. *)
Definition fil_of (f : files) : fil := match f with F1 f => mkF (Some NOP) f 0 | F2 f o g => mkF (Some o) f g end.
Definition the_copy (n : Z) (c : col) : col :=
  mkC (opy c) (further (per0 c) n) (match opy c with NOP | BASE => per1 c | _ => further (per1 c) n end) (opf c) (fnb0 c) (fnb1 c).
Lemma moved_col_ok c n : okc c -> moved_col c n = Ok (the_copy n c) /\ okc (the_copy n c) /\ view (the_copy n c) = copy_of n (view c).
Proof.
  intros (V0 & V1 & V2). unfold moved_col. rewrite (proj1 (shift_further _ n V0)). cbn [rbind].
  assert (Q : (match opy c with NOP | BASE => Ok (per1 c) | _ => shift (per1 c) n end)
     = Ok (match opy c with NOP | BASE => per1 c | _ => further (per1 c) n end)).
  { destruct (opy c) eqn:Eo; try reflexivity; apply shift_further; apply V1; congruence. }
  rewrite Q. cbn [rbind]. split; [reflexivity|]. split.
  - split; [apply shift_further; exact V0|split; [|exact V2]]. cbn [the_copy opy per0 per1]. intros Ho.
    destruct (V1 Ho) as (V1a & V1b). rewrite per_further.
    destruct (opy c); try congruence; (split; [apply shift_further; exact V1a|rewrite per_further; exact V1b]) || (split; assumption).
  - unfold view, copy_of, map_pers. cbn [the_copy opy per0 per1 opf fnb0 fnb1 v_op v_0 v_1 v_files]. destruct (opy c); reflexivity.
Qed.
Lemma with_files_ok fs c : okc c -> Forall wf_files (match fs with Some l => l | None => [] end) ->
  let m := with_files (match fs with Some l => map fil_of l | None => [mkF None 0 0] end) c in
  map view m = given fs (view c) /\ Forall okc m.
Proof.
  intros K W. pose proof K as (V0 & V1 & V2). cbv zeta. unfold with_files, given.
  destruct (fnb0 c =? 0) eqn:E.
  - assert (O : opf c = None) by (apply V2; lia).
    assert (Vf : v_files (view c) = None) by (unfold view; cbn; rewrite O; reflexivity). rewrite Vf.
    destruct fs as [l|].
    + clear Vf. induction l as [|f l IH]; [split; [reflexivity|constructor]|].
      inversion W as [|x y W1 W2]; subst. destruct (IH W2) as (I1 & I2). cbn [map]. rewrite I1. split.
      * f_equal. destruct f; reflexivity.
      * constructor; [|exact I2]. split; [exact V0|split; [exact V1|]]. destruct f; cbn in W1 |- *; (split; [lia|discriminate]).
    + split.
      * cbn [map]. f_equal. unfold view, apply_fil. cbn [opy per0 per1 opf fl_op fl_1 fl_2]. rewrite O. reflexivity.
      * constructor; [|constructor]. split; [exact V0|split; [exact V1|]]. cbn. split; auto.
  - assert (O : opf c <> None) by (intros X; apply V2 in X; lia).
    destruct (opf c) as [o|] eqn:Eo; [|congruence].
    split; [|constructor; [exact K|constructor]]. unfold view at 2. rewrite Eo. cbn [v_files]. destruct fs; reflexivity.
Qed.
Lemma Forall_flat {X} (P : X -> Prop) {Y} (f : Y -> list X) l : Forall (fun y => Forall P (f y)) l -> Forall P (flat_map f l).
Proof. induction 1; cbn; [constructor|]. apply Forall_app. auto. Qed.
Lemma construct_ok cls l fs r : Forall okc l -> Forall wf_files (match fs with Some l => l | None => [] end) -> 0 <= r_nb r ->
  exists l', construct cls l (option_map (map fil_of) fs) r = Ok (cls ++ l')
  /\ map view l' = copies (if r_nb r =? 0 then 1 else r_nb r) (if r_nb r =? 0 then 1 else r_incr r) fs (map view l) /\ Forall okc l'.
Proof.
  intros K W N. unfold construct.
  replace (r_nb (if r_nb r =? 0 then mkR 1 1 else r)) with (if r_nb r =? 0 then 1 else r_nb r) by (destruct (r_nb r =? 0); reflexivity).
  replace (r_incr (if r_nb r =? 0 then mkR 1 1 else r)) with (if r_nb r =? 0 then 1 else r_incr r) by (destruct (r_nb r =? 0); reflexivity).
  set (nb := if r_nb r =? 0 then 1 else r_nb r). set (incr := if r_nb r =? 0 then 1 else r_incr r).
  assert (M : mapM (fun i => mapM (fun c => moved_col c (i * incr)) l) (seqZ 0 (Z.to_nat nb))
      = Ok (map (fun i => map (the_copy (i * incr)) l) (seqZ 0 (Z.to_nat nb)))).
  { apply mapM_spec. intros i _. apply mapM_spec. intros c Hc. rewrite Forall_forall in K. apply moved_col_ok. apply K. exact Hc. }
  rewrite M. cbn [rbind]. eexists. split; [reflexivity|].
  replace (match option_map (map fil_of) fs with Some l0 => l0 | None => [mkF None 0 0] end)
    with (match fs with Some l => map fil_of l | None => [mkF None 0 0] end) by (destruct fs; reflexivity).
  set (g := with_files _). unfold copies.
  assert (Q : forall i, map view (flat_map g (map (the_copy (i * incr)) l)) = flat_map (fun c => given fs (copy_of (i * incr) c)) (map view l)
       /\ Forall okc (flat_map g (map (the_copy (i * incr)) l))).
  { intros i. induction l as [|c l IH]; [split; [reflexivity|constructor]|].
    inversion K as [|x y K1 K2]; subst. cbn [map flat_map]. rewrite map_app.
    assert (M' : mapM (fun i => mapM (fun c => moved_col c (i * incr)) l) (seqZ 0 (Z.to_nat nb))
      = Ok (map (fun i => map (the_copy (i * incr)) l) (seqZ 0 (Z.to_nat nb)))).
    { apply mapM_spec. intros j _. apply mapM_spec. intros d Hd. rewrite Forall_forall in K2. apply moved_col_ok. apply K2. exact Hd. }
    destruct (IH K2 M') as (I1 & I2). rewrite I1.
    destruct (moved_col_ok c (i * incr) K1) as (_ & K3 & K4).
    destruct (with_files_ok fs (the_copy (i * incr) c) K3 W) as (J1 & J2). fold g in J1, J2. rewrite J1, K4.
    split; [reflexivity|]. apply Forall_app. auto. }
  induction (seqZ 0 (Z.to_nat nb)) as [|i s IHs]; [split; [reflexivity|constructor]|].
  cbn [map concat flat_map]. rewrite flat_map_app, map_app.
  assert (M'' : mapM (fun i => mapM (fun c => moved_col c (i * incr)) l) s = Ok (map (fun i => map (the_copy (i * incr)) l) s)).
  { apply mapM_spec. intros j _. apply mapM_spec. intros d Hd. rewrite Forall_forall in K. apply moved_col_ok. apply K. exact Hd. }
  destruct (IHs M'') as (I1 & I2). destruct (Q i) as (Q1 & Q2). rewrite I1, Q1. split; [reflexivity|]. apply Forall_app. auto.
Qed.

(** * Suffixes *)

Definition incr_text (i : option (bool * count)) : str :=
  match i with Some (minus, k) => S2L "*" ++ (if (minus : bool) then S2L "-" else []) ++ p_count k | None => [] end.
Definition incr_val (i : option (bool * count)) : Z :=
  match i with Some (minus, k) => if (minus : bool) then - v_count w k else v_count w k | None => 1 end.
Lemma count_head n : wf_count n -> exists d r, p_count n = d :: r /\ (isdigit d = true \/ In d (S2L "BENPS")).
Proof.
  destruct n as [n| |]; cbn [wf_count p_count]; intros H.
  - destruct (dec_nonneg_cons n ltac:(lia)) as (d & r & -> & X). eauto.
  - do 2 eexists. split; [reflexivity|]. right. cbn. auto 20.
  - do 2 eexists. split; [reflexivity|]. right. cbn. auto 20.
Qed.
Lemma back_count n tl c2 : wf_count n -> sep tl ->
  read_long_per e (gunread (plain tl (typ_of n) (p_count n) c2)) = Done (v_count w n, plain tl (typ_of n) (p_count n) c2).
Proof. intros W St. apply of_token. apply (glex_count n tl Y_NONE [] c2 W St). Qed.
Lemma read_rep_ok n i tl t v c2 : wf_suffix w (Repeat n i) -> nxt tl ->
  exists s', read_rep e (plain (p_count n ++ incr_text i ++ tl) t v c2) = gret (mkR (v_count w n) (incr_val i)) s' /\ at_text s' tl.
Proof.
  intros (W1 & W2 & W3) N. unfold read_rep.
  assert (Si : sep (incr_text i ++ tl)) by (destruct i as [[b k]|]; [cbn; auto 20|apply nxt_sep; exact N]).
  rewrite (read_count n _ _ _ _ W1 Si). cbn [ibind]. rewrite (to_short_id (v_count w n)) by lia.
  replace (v_count w n <? 0) with false by lia.
  destruct i as [[b k]|]; cbn [incr_text incr_val].
  - destruct W3 as (W3 & W4). rewrite <- app_assoc. cbn [S2L list_ascii_of_string app].
    rewrite glex_sign by (split; [cbn; auto 20|discriminate]). cbn [ibind]. change (sign_key "*") with STAR. cbv iota.
    destruct b.
    + cbn [S2L list_ascii_of_string app].
      assert (F : follow "-"%char (p_count k ++ tl)).
      { destruct (count_head k W3) as (d & r & -> & H). apply follow_head; [cbn; auto 20|exact H]. }
      rewrite (glex_sign _ _ _ _ _ F). cbn [ibind]. change (sign_key "-") with (OP DIFF). cbv iota beta.
      rewrite (read_count k _ _ _ _ W3 (nxt_sep tl N)). cbn [ibind]. rewrite (to_short_id (v_count w k)) by lia.
      replace (v_count w k <? 0) with false by lia. rewrite (to_short_id (v_count w k * -1)) by lia.
      eexists. split; [|apply at_plain]. do 2 f_equal. lia.
    + cbn [app]. destruct (glex_count k tl Y_SPECIAL ["*"%char] c2 W3 (nxt_sep tl N)) as (G & _). rewrite G. cbn [ibind].
      assert (X : match tok_of k with OP DIFF => (-1, plain tl (typ_of k) (p_count k) c2) | _ => (1, gunread (plain tl (typ_of k) (p_count k) c2)) end
         = (1, gunread (plain tl (typ_of k) (p_count k) c2))) by (destruct k; reflexivity).
      rewrite X. rewrite (back_count k tl c2 W3 (nxt_sep tl N)). cbn [ibind]. rewrite (to_short_id (v_count w k)) by lia.
      replace (v_count w k <? 0) with false by lia. rewrite (to_short_id (v_count w k * 1)) by lia.
      eexists. split; [|apply at_plain]. do 2 f_equal. lia.
  - cbn [app]. destruct (glex_nxt tl (typ_of n) (p_count n) c2 N) as (k & s' & G & A & K). rewrite G. cbn [ibind].
    exists (gunread s'). split; [|exact A]. destruct k; (reflexivity || contradiction).
Qed.

Lemma read_1f_ok f c r t v c2 : wf_files f -> c = ";"%char \/ c = "]"%char ->
  exists s', read_1f (plain (p_files f ++ c :: r) t v c2) = gret (fil_of f) s' /\ at_text s' (c :: r).
Proof.
  intros W C. assert (Fc : follow c r) by (destruct C as [-> | ->]; (split; [cbn; auto 20|discriminate])).
  assert (Sc : sep (c :: r)) by (apply Fc).
  assert (NS : match sign_key c with OP _ => False | _ => True end) by (destruct C as [-> | ->]; exact I).
  unfold read_1f. destruct f as [f|f o g]; cbn [p_files fil_of].
  - cbn [wf_files] in W. rewrite (glex_num f _ _ _ _ ltac:(lia) (sep_num _ Sc)). cbn [ibind].
    replace (f <? 1) with false by lia. replace (10 <? f) with false by lia. cbn [orb].
    rewrite (glex_sign _ _ _ _ _ Fc). cbn [ibind].
    exists (gunread (plain r Y_SPECIAL [c] c2)). split; [destruct (sign_key c); (reflexivity || contradiction)|].
    right. left. do 3 eexists. auto.
  - destruct W as (W1 & W2 & W3). rewrite <- !app_assoc.
    destruct (dec_nonneg_cons g ltac:(lia)) as (d & q & Eg & Hd).
    assert (X : forall x, In x SIGNS -> p_op o = [x] -> sign_key x = OP o ->
       exists s', read_1f (plain (dec_nonneg f ++ p_op o ++ dec_nonneg g ++ c :: r) t v c2) = gret (mkF (Some o) f g) s' /\ at_text s' (c :: r)).
    { intros x Ix Px Kx. unfold read_1f. rewrite Px. cbn [app].
      rewrite (glex_num f (x :: dec_nonneg g ++ c :: r) t v c2) by (lia || (apply sep_num; exact Ix)). cbn [ibind].
      replace (f <? 1) with false by lia. replace (10 <? f) with false by lia. cbn [orb].
      assert (Fx : follow x (dec_nonneg g ++ c :: r)) by (rewrite Eg; apply follow_head; [exact Ix|left; exact Hd]).
      rewrite (glex_sign _ _ _ _ _ Fx), Kx. cbn [ibind].
      rewrite (glex_num g (c :: r) Y_SPECIAL [x] c2 ltac:(lia) (sep_num _ Sc)). cbn [ibind]. rewrite (to_short_id g) by lia.
      eexists. split; [|apply at_plain]. destruct W3 as [-> | [-> | [-> | [-> | ->]]]]; reflexivity. }
    unfold read_1f in X.
    destruct W3 as [-> | [-> | [-> | [-> | ->]]]]; [apply (X "+"%char)|apply (X "-"%char)|apply (X "/"%char)|apply (X "^"%char)|apply (X "="%char)];
      cbn; auto 20.
Qed.
Lemma read_f_ok l : forall f fuel acc tl t v c2, Forall wf_files (f :: l) -> (length l < fuel)%nat ->
  exists t' v' c', read_f fuel acc (plain (p_files f ++ flat_map (fun f => S2L ";" ++ p_files f) l ++ S2L "]" ++ tl) t v c2)
    = gret (acc ++ map fil_of (f :: l)) (plain tl t' v' c').
Proof.
  induction l as [|g l IH]; intros f fuel acc tl t v c2 W L; (destruct fuel as [|k]; [cbn in L; lia|]);
    inversion W as [|x y W1 W2]; subst; cbn [read_f flat_map map].
  - cbn [app S2L list_ascii_of_string]. destruct (read_1f_ok f "]" tl t v c2 W1 ltac:(auto)) as (s' & R & A). rewrite R.
    unfold gret at 1, gbind. cbn [ibind]. destruct (glex_at_sign s' _ _ A ltac:(split; [cbn; auto 20|discriminate])) as (c' & G).
    rewrite G. cbn [ibind]. change (sign_key "]") with CBRACK. cbv iota. do 3 eexists. reflexivity.
  - rewrite <- !app_assoc. cbn [app S2L list_ascii_of_string].
    destruct (read_1f_ok f ";" (p_files g ++ flat_map (fun f => S2L ";" ++ p_files f) l ++ S2L "]" ++ tl) t v c2 W1 ltac:(auto)) as (s' & R & A).
    cbn [app S2L list_ascii_of_string] in R, A. rewrite R.
    unfold gret at 1, gbind. cbn [ibind]. destruct (glex_at_sign s' _ _ A ltac:(split; [cbn; auto 20|discriminate])) as (c' & G).
    rewrite G. cbn [ibind]. change (sign_key ";") with COMMA. cbv iota.
    destruct (IH g k (acc ++ [fil_of f]) tl Y_SPECIAL [";"%char] c' W2 ltac:(cbn in L; lia)) as (t' & v' & c'' & E).
    cbn [app S2L list_ascii_of_string] in E. rewrite E. rewrite <- app_assoc. do 3 eexists. reflexivity.
Qed.

Lemma p_suffix_head x tl : nxt (p_suffix x ++ tl).
Proof. destruct x as [[|] n|f l|n i]; cbn; auto 20. Qed.
Lemma p_suffixes_head ss tl : nxt tl -> nxt (flat_map p_suffix ss ++ tl).
Proof. intros H. destruct ss as [|x ss]; [exact H|]. cbn [flat_map]. rewrite <- app_assoc. apply p_suffix_head. Qed.
Lemma p_suffix_length x : (1 <= length (p_suffix x))%nat.
Proof. destruct x as [[|] n|f l|n i]; cbn; lia. Qed.

(** The variables of [COL_read_cols] after some suffixes. *)
Definition rep_now (o : Z * Z) (r : rep) : Prop := r_nb r = fst o /\ r_incr r = snd o.
Lemma suffixes_ok ss : forall fuel cls l fso r s tl,
  Forall okc l -> Forall (wf_suffix w) ss -> Forall (mild w (length l)) ss -> nxt tl ->
  at_text s (flat_map p_suffix ss ++ tl) ->
  (length (flat_map p_suffix ss) <= fuel)%nat ->
  (match fso with Some _ => filter is_files ss = [] | None => (length (filter is_files ss) <= 1)%nat end) ->
  (if 0 <? r_nb r then filter is_repeat ss = [] else (length (filter is_repeat ss) <= 1)%nat) -> 0 <= r_nb r ->
  exists fuel' l' fso' r' s', read_cols fuel e cls (Some l) (option_map (map fil_of) fso) r s
      = read_cols fuel' e cls (Some l') (option_map (map fil_of) fso') r' s'
    /\ at_text s' tl /\ (fuel - length (flat_map p_suffix ss) <= fuel')%nat /\ Forall okc l' /\ map view l' = shifted w ss (map view l)
    /\ fso' = (match fso with Some _ => fso | None => files_of ss end)
    /\ (if 0 <? r_nb r then r' = r else match filter is_repeat ss with [] => r' = r | _ => r' = mkR (fst (repeat_of w ss)) (snd (repeat_of w ss)) end).
Proof.
  induction ss as [|x ss IH]; intros fuel cls l fso r s tl K W M N A L Fo Ro R0.
  - cbn [flat_map app] in A. exists fuel, l, fso, r, s. cbn. repeat split; auto; [lia|destruct fso; reflexivity|destruct (0 <? r_nb r); reflexivity].
  - inversion W as [|y z W1 W2]; subst. inversion M as [|y z M1 M2]; subst.
    cbn [flat_map] in A, L. rewrite app_length in L. pose proof (p_suffix_length x) as Lx.
    destruct fuel as [|k]; [lia|].
    assert (A' : at_text s (p_suffix x ++ flat_map p_suffix ss ++ tl)) by (rewrite app_assoc; exact A). clear A.
    set (rs := flat_map p_suffix ss ++ tl) in *.
    assert (Nr : nxt rs) by (apply p_suffixes_head; exact N).
    destruct x as [b n|f fl|n i].
    + (* a shift *)
      cbn [p_suffix] in A'. rewrite <- app_assoc in A'.
      assert (X : exists c2, glex s = Done (if b then SHIFTL else SHIFTR, plain (p_count n ++ rs) Y_SPECIAL (p_sign b) c2)).
      { destruct b; cbn [p_sign S2L list_ascii_of_string app] in A' |- *;
          (destruct (glex_at_sign s _ _ A' ltac:(split; [cbn; auto 20|discriminate])) as (c2 & G); exists c2; exact G). }
      destruct X as (c2 & G). cbn [wf_suffix] in W1. pose proof (count_nonneg n W1) as Nn.
      pose proof (read_count n rs Y_SPECIAL (p_sign b) c2 W1 (nxt_sep rs Nr)) as Rc.
      assert (Mb : b = true -> v_count w n = 0 \/ (length l <= 1)%nat) by (intros ->; exact M1).
      destruct (shift_cols_ok b (v_count w n) l K Nn Mb) as (l1 & S1 & V1 & K1 & Len1).
      assert (E1 : read_cols (S k) e cls (Some l) (option_map (map fil_of) fso) r s
         = read_cols k e cls (Some l1) (option_map (map fil_of) fso) r (plain rs (typ_of n) (p_count n) c2)).
      { cbn [read_cols]. rewrite G. cbn [ibind]. destruct b; cbv iota; rewrite Rc; cbn [ibind];
          (replace (v_count w n <? 0) with false by lia); rewrite S1; reflexivity. }
      destruct (IH k cls l1 fso r (plain rs (typ_of n) (p_count n) c2) tl K1 W2 ltac:(rewrite Len1; exact M2) N (at_plain _ _ _ _) ltac:(lia) Fo Ro R0)
        as (k' & l' & fso' & r' & s' & E2 & A2 & L2 & K2 & V2 & F2 & R2).
      exists k', l', fso', r', s'. rewrite E1, E2. split; [reflexivity|]. split; [exact A2|]. split; [cbn [flat_map]; rewrite app_length; lia|].
      split; [exact K2|]. split; [|split; [exact F2|exact R2]].
      unfold shifted in V2 |- *. cbn [fold_left]. rewrite V2, V1. reflexivity.
    + (* files *)
      cbn [is_files is_repeat filter length] in Fo, Ro.
      destruct fso as [fs|]; [discriminate Fo|]. assert (Fo' : filter is_files ss = []) by (destruct (filter is_files ss); [reflexivity|cbn in Fo; lia]).
      cbn [p_suffix] in A'. rewrite <- !app_assoc in A'. cbn [S2L list_ascii_of_string app] in A'.
      destruct (glex_at_sign s _ _ A' ltac:(split; [cbn; auto 20|discriminate])) as (c2 & G).
      match type of G with _ = Done (_, plain ?T _ _ _) => set (txt := T) in G end.
      assert (Rf : exists t' v' c', read_f (S (length txt)) [] (plain txt Y_SPECIAL ["["%char] c2) = gret (map fil_of (f :: fl)) (plain rs t' v' c')).
      { apply (read_f_ok fl f (S (length txt)) [] rs Y_SPECIAL ["["%char] c2 W1).
        unfold txt. rewrite !app_length. assert (X : (length fl <= length (flat_map (fun f => S2L ";" ++ p_files f) fl))%nat).
        { clear. induction fl as [|g fl IH]; [cbn; lia|]. cbn [flat_map length]. rewrite app_length. cbn in *. lia. }
        unfold S2L in X. cbn [list_ascii_of_string app] in X. lia. }
      destruct Rf as (t' & v' & c' & Rf).
      assert (E1 : read_cols (S k) e cls (Some l) (option_map (map fil_of) None) r s
         = read_cols k e cls (Some l) (option_map (map fil_of) (Some (f :: fl))) r (plain rs t' v' c')).
      { cbn [read_cols option_map]. rewrite G. cbn [ibind]. change (sign_key "[") with OBRACK. cbv iota.
        cbn [plain gy rest]. change (mkG (mkY txt Y_SPECIAL ["["%char] false) c2) with (plain txt Y_SPECIAL ["["%char] c2).
        rewrite Rf. reflexivity. }
      destruct (IH k cls l (Some (f :: fl)) r (plain rs t' v' c') tl K W2 M2 N (at_plain _ _ _ _) ltac:(lia) Fo' Ro R0)
        as (k' & l' & fso' & r' & s' & E2 & A2 & L2 & K2 & V2 & F2 & R2).
      exists k', l', fso', r', s'. rewrite E1, E2. split; [reflexivity|]. split; [exact A2|]. split; [cbn [flat_map]; rewrite app_length; lia|].
      split; [exact K2|]. split; [exact V2|]. split; [exact F2|exact R2].
    + (* a repetition *)
      cbn [is_files is_repeat filter length] in Fo, Ro.
      destruct (0 <? r_nb r) eqn:Er; [discriminate Ro|]. assert (Ro' : filter is_repeat ss = []) by (destruct (filter is_repeat ss); [reflexivity|cbn in Ro; lia]).
      cbn [p_suffix] in A'. change (match i with Some (minus, k0) => S2L "*" ++ (if minus then S2L "-" else []) ++ p_count k0 | None => [] end)
        with (incr_text i) in A'. rewrite <- !app_assoc in A'. cbn [S2L list_ascii_of_string app] in A'.
      destruct (glex_at_sign s _ _ A' ltac:(split; [cbn; auto 20|discriminate])) as (c2 & G).
      destruct (read_rep_ok n i rs Y_SPECIAL [":"%char] c2 W1 Nr) as (s1 & Rr & A1).
      assert (E1 : read_cols (S k) e cls (Some l) (option_map (map fil_of) fso) r s
         = read_cols k e cls (Some l) (option_map (map fil_of) fso) (mkR (v_count w n) (incr_val i)) s1).
      { cbn [read_cols]. rewrite G. cbn [ibind]. change (sign_key ":") with COLON. cbv iota. rewrite Er, Rr. reflexivity. }
      destruct W1 as (W1 & W3 & W4).
      destruct (IH k cls l fso (mkR (v_count w n) (incr_val i)) s1 tl K W2 M2 N A1 ltac:(lia) Fo ltac:(cbn [r_nb]; replace (0 <? v_count w n) with true by lia; exact Ro') ltac:(cbn [r_nb]; lia))
        as (k' & l' & fso' & r' & s' & E2 & A2 & L2 & K2 & V2 & F2 & R2).
      exists k', l', fso', r', s'. rewrite E1, E2. split; [reflexivity|]. split; [exact A2|]. split; [cbn [flat_map]; rewrite app_length; lia|].
      split; [exact K2|]. split; [exact V2|]. split; [exact F2|]. cbn [r_nb] in R2. replace (0 <? v_count w n) with true in R2 by lia.
      cbn [filter is_repeat]. rewrite R2. reflexivity.
Qed.

(** * Items and samples *)

Definition R0 : rep := mkR 0 0.
Definition P_atom (a : atom) : Prop := wf_atom w a -> mild_atom w a -> forall fuel cls tl t v c2,
  (match a with Group _ => nxt tl | _ => brk tl end) -> (length (p_atom a) <= fuel)%nat ->
  exists fuel' l s', read_cols fuel e cls None None R0 (plain (p_atom a ++ tl) t v c2) = read_cols fuel' e cls (Some l) None R0 s'
    /\ at_text s' tl /\ map view l = v_atom w a /\ Forall okc l /\ (fuel - length (p_atom a) <= fuel')%nat.
Definition P_item (i : item) : Prop := wf_item w i -> mild_item w i -> forall fuel cls tl t v c2,
  (match tl with [] => True | c :: _ => In c (S2L ";)") end) -> (length (p_item i) <= fuel)%nat ->
  exists fuel' l fso r s', read_cols fuel e cls None None R0 (plain (p_item i ++ tl) t v c2)
      = read_cols fuel' e cls (Some l) (option_map (map fil_of) fso) r s'
    /\ at_text s' tl /\ Forall okc l /\ (fuel - length (p_item i) <= fuel')%nat
    /\ Forall wf_files (match fso with Some l => l | None => [] end) /\ 0 <= r_nb r
    /\ copies (if r_nb r =? 0 then 1 else r_nb r) (if r_nb r =? 0 then 1 else r_incr r) fso (map view l) = v_item w i.
Definition P_gs (g : gs) : Prop := wf_gs w g -> mild_gs w g -> forall fuel cls tl t v c2,
  (match tl with [] => True | c :: _ => c = ")"%char end) -> (length (p_gs g) < fuel)%nat ->
  exists l t' v' c', read_cols fuel e cls None None R0 (plain (p_gs g ++ tl) t v c2) = gret (cls ++ l) (plain (List.tl tl) t' v' c')
    /\ map view l = v_gs w g /\ Forall okc l.

Lemma anchor_turn p rs fuel cls t v c2 : wf_per p -> sep rs ->
  let s1 := plain (p_sub (gsub p) ++ p_moves (gmoves p) ++ rs) (typ_anchor (ga p)) (p_anchor (ga p)) c2 in
  read_cols (S fuel) e cls None None R0 (plain (p_per p ++ rs) t v c2)
  = gbind (read_y e (gunread s1)) (fun l s2 => read_cols fuel e cls (Some l) None R0 s2)
  /\ glex (gunread s1) = Done (tok_anchor (ga p), s1).
Proof.
  intros W Sp. cbv zeta. destruct (glex_anchor p rs t v c2 W Sp) as (G1 & G2). cbv zeta in G1, G2. split; [|exact G2].
  cbn [read_cols]. rewrite G1. cbn [ibind]. destruct (ga p); reflexivity.
Qed.
Lemma per_length p : wf_per p -> (1 <= length (p_per p))%nat.
Proof. intros W. destruct (per_head p W) as (c & r & -> & _). cbn. lia. Qed.
Lemma atom_one p : P_atom (One p).
Proof.
  intros W _ fuel cls tl t v c2 B L. cbn [p_atom] in *. pose proof (per_length p W) as Lp.
  destruct fuel as [|k]; [lia|].
  destruct (anchor_turn p tl k cls t v c2 W (nxt_sep tl (brk_nxt tl B))) as (E & G).
  destruct (read_y_one p tl _ _ _ _ W B G) as (s' & l & R & A & V & K).
  exists k, l, s'. rewrite E, R. split; [reflexivity|]. split; [exact A|]. split; [exact V|]. split; [exact K|lia].
Qed.
Lemma atom_two p o q : P_atom (Two p o q).
Proof.
  intros (W & W' & N & Pp) _ fuel cls tl t v c2 B L. cbn [p_atom] in *. pose proof (per_length p W) as Lp. rewrite !app_length in L.
  destruct fuel as [|k]; [lia|]. rewrite <- !app_assoc.
  assert (Sp : sep (p_op o ++ p_per q ++ tl)) by (destruct o; [congruence|..]; cbn; auto 20).
  destruct (anchor_turn p _ k cls t v c2 W Sp) as (E & G).
  destruct (read_y_two p o q tl _ _ _ _ W W' N Pp B G) as (s' & l & R & A & V & K).
  exists k, l, s'. rewrite E, R. split; [reflexivity|]. split; [exact A|]. split; [exact V|]. split; [exact K|rewrite !app_length; lia].
Qed.
Lemma atom_group g : P_gs g -> P_atom (Group g).
Proof.
  intros IH W M fuel cls tl t v c2 N L. cbn [p_atom wf_atom mild_atom v_atom] in *. rewrite !app_length in L. cbn [length S2L list_ascii_of_string] in L.
  destruct fuel as [|k]; [lia|]. rewrite <- !app_assoc. cbn [S2L list_ascii_of_string app].
  assert (F : follow "("%char (p_gs g ++ ")"%char :: tl)) by (split; [cbn; auto 20|discriminate]).
  destruct (IH W M k [] (")"%char :: tl) Y_SPECIAL ["("%char] c2 eq_refl ltac:(cbn in L; lia)) as (l & t' & v' & c' & R & V & K).
  exists k, l, (plain tl t' v' c').
  split; [|split; [apply at_plain|split; [exact V|split; [exact K|cbn; rewrite !app_length; cbn; lia]]]].
  cbn [read_cols]. rewrite (glex_sign _ _ _ _ _ F). cbn [ibind]. change (sign_key "(") with OPAR. cbv iota.
  change (mkR 0 0) with R0. cbn [List.tl] in R. rewrite R. reflexivity.
Qed.
Lemma files_of_wf ss : Forall (wf_suffix w) ss -> Forall wf_files (match files_of ss with Some l => l | None => [] end).
Proof.
  induction 1 as [|x ss H _ IH]; [constructor|]. destruct x; cbn [files_of]; try exact IH. exact H.
Qed.
Lemma repeat_of_none ss : filter is_repeat ss = [] -> repeat_of w ss = (1, 1).
Proof. induction ss as [|x ss IH]; [reflexivity|]. destruct x; cbn; try exact IH. discriminate. Qed.
Lemma repeat_of_pos ss : Forall (wf_suffix w) ss -> filter is_repeat ss <> [] -> 1 <= fst (repeat_of w ss).
Proof.
  induction 1 as [|x ss H _ IH]; [intros N; destruct (N eq_refl)|]. destruct x; cbn; try exact IH. intros _. cbn in H. lia.
Qed.
Lemma item_ok a ss : P_atom a -> P_item (Item a ss).
Proof.
  intros IH (Wa & Ws & Of & Or & St) (Ma & Ms) fuel cls tl t v c2 T L. cbn [p_item] in *. rewrite app_length in L. rewrite <- app_assoc.
  assert (Bt : brk tl) by (destruct tl; [exact I|]; cbn in T |- *; intuition).
  assert (Nt : nxt (flat_map p_suffix ss ++ tl)) by (apply p_suffixes_head, brk_nxt; exact Bt).
  assert (Na : match a with Group _ => nxt (flat_map p_suffix ss ++ tl) | _ => brk (flat_map p_suffix ss ++ tl) end).
  { destruct a; [| |exact Nt]; (destruct ss as [|x ss]; [exact Bt|]); cbn [starts_with_shift] in St; destruct x; cbn in St |- *; try discriminate; auto 20. }
  destruct (IH Wa Ma fuel cls _ t v c2 Na ltac:(lia)) as (k & l & s & E & A & V & K & Lk).
  assert (Ms' : Forall (mild w (length l)) ss) by (rewrite <- (map_length view l), V; exact Ms).
  destruct (suffixes_ok ss k cls l None R0 s tl K Ws Ms' (brk_nxt tl Bt) A ltac:(lia) Of Or ltac:(cbn; lia))
    as (k' & l' & fso & r & s' & E2 & A2 & L2 & K2 & V2 & F2 & R2).
  exists k', l', fso, r, s'. change (option_map (map fil_of) None) with (@None (list fil)) in E2. rewrite E, E2.
  split; [reflexivity|]. split; [exact A2|]. split; [exact K2|]. split; [rewrite app_length; lia|]. subst fso.
  split; [apply files_of_wf; exact Ws|].
  change (0 <? r_nb R0) with false in R2. cbv iota in R2. cbn [v_item].
  destruct (filter is_repeat ss) eqn:Ef.
  - subst r. cbn [R0 r_nb r_incr]. split; [lia|]. rewrite (repeat_of_none ss Ef), V2, V. reflexivity.
  - pose proof (repeat_of_pos ss Ws ltac:(rewrite Ef; discriminate)) as P. subst r. cbn [r_nb r_incr].
    split; [lia|]. replace (fst (repeat_of w ss) =? 0) with false by lia.
    destruct (repeat_of w ss) as [nb incr]. cbn [fst snd]. rewrite V2, V. reflexivity.
Qed.
Lemma gs_last i : P_item i -> P_gs (Last i).
Proof.
  intros IH W M fuel cls tl t v c2 T L. cbn [p_gs wf_gs mild_gs v_gs] in *.
  destruct (IH W M fuel cls tl t v c2 ltac:(destruct tl; [exact I|subst; cbn; auto]) ltac:(lia)) as (k & l & fso & r & s & E & A & K & Lk & Wf & Nr & V).
  destruct (construct_ok cls l fso r K Wf Nr) as (l' & C & V' & K'). rewrite V in V'.
  destruct k as [|k]; [lia|].
  destruct tl as [|c rs].
  - destruct (glex_at_end s A) as (v1 & c1 & G). exists l', Y_EOF, v1, c1. split; [|split; [exact V'|exact K']].
    rewrite E. cbn [read_cols]. rewrite G. cbn [ibind]. rewrite C. reflexivity.
  - subst c. destruct (glex_at_sign s _ _ A ltac:(split; [cbn; auto 20|discriminate])) as (c1 & G).
    exists l', Y_SPECIAL, [")"%char], c1. split; [|split; [exact V'|exact K']].
    rewrite E. cbn [read_cols]. rewrite G. cbn [ibind]. change (sign_key ")") with CPAR. cbv iota. rewrite C. reflexivity.
Qed.
Lemma gs_more i g : P_item i -> P_gs g -> P_gs (More i g).
Proof.
  intros IHi IHg (Wi & Wg) (Mi & Mg) fuel cls tl t v c2 T L. cbn [p_gs v_gs] in *. rewrite !app_length in L. cbn [length S2L list_ascii_of_string] in L.
  rewrite <- !app_assoc. cbn [S2L list_ascii_of_string app].
  destruct (IHi Wi Mi fuel cls (";"%char :: p_gs g ++ tl) t v c2 ltac:(cbn; auto) ltac:(lia)) as (k & l & fso & r & s & E & A & K & Lk & Wf & Nr & V).
  destruct (construct_ok cls l fso r K Wf Nr) as (l1 & C & V1 & K1). rewrite V in V1.
  destruct (glex_at_sign s _ _ A ltac:(split; [cbn; auto 20|discriminate])) as (c1 & G).
  destruct k as [|k]; [lia|].
  destruct (IHg Wg Mg k (cls ++ l1) tl Y_SPECIAL [";"%char] c1 T ltac:(lia)) as (l2 & t' & v' & c' & R & V2 & K2).
  exists (l1 ++ l2), t', v', c'. split; [|split; [rewrite map_app, V1, V2; reflexivity|apply Forall_app; auto]].
  rewrite E. cbn [read_cols]. rewrite G. cbn [ibind]. change (sign_key ";") with COMMA. cbv iota. rewrite C. cbn [of_res ibind].
  change (mkR 0 0) with R0. rewrite R, app_assoc. reflexivity.
Qed.
Scheme gs_mut := Induction for gs Sort Prop with item_mut := Induction for item Sort Prop with atom_mut := Induction for atom Sort Prop.
Lemma gs_ok g : P_gs g.
Proof.
  apply (gs_mut P_gs P_item P_atom).
  - exact gs_last.
  - intros i Hi g0 Hg. exact (gs_more i g0 Hi Hg).
  - intros a IH ss. apply item_ok. exact IH.
  - exact atom_one.
  - exact atom_two.
  - exact atom_group.
Qed.
End Env.
