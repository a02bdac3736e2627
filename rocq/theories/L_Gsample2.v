(** Lemmas on generalised samples: the whole text; what every accepted text gives. *)
From Coq Require Import ZArith Ascii String List Bool Lia ZifyBool.
From Verif Require Import M_Base M_Time M_Names M_Lex M_Ascii M_Gsample S_Time S_Names S_Ascii S_Gsample L_Time L_Names L_Ascii L_Exec2 L_Codepage L_Gsample.
Import ListNotations.
Open Scope Z_scope.

(** * The text of a sample *)

Notation pr t := (printable t).
Lemma pr_app a b : pr a -> pr b -> pr (a ++ b).
Proof. intros H K. apply Forall_app. auto. Qed.
Lemma pr_flat {X} (f : X -> str) l : Forall (fun x => pr (f x)) l -> pr (flat_map f l).
Proof. induction 1; cbn; [constructor|apply pr_app; assumption]. Qed.
Lemma pr_dec n : 0 <= n -> pr (dec_nonneg n).
Proof.
  intros H. pose proof (dec_nonneg_digits n H) as D. unfold printable. rewrite Forall_forall in *. intros c Hc. specialize (D c Hc).
  unfold isdigit in D. lia.
Qed.
Ltac prs := repeat (constructor; [left; vm_compute; discriminate|]); constructor.
Lemma pr_count n : wf_count n -> pr (p_count n).
Proof. destruct n; cbn [wf_count p_count]; intros H; [apply pr_dec; lia|prs|prs]. Qed.
Lemma pr_sign b : pr (p_sign b).
Proof. destruct b; prs. Qed.
Lemma pr_op o : pr (p_op o).
Proof. destruct o; prs. Qed.
Lemma pr_per p : wf_per p -> pr (p_per p).
Proof.
  intros (Wa & Ws & Wm). unfold p_per. apply pr_app; [|apply pr_app].
  - destruct (ga p); cbn [p_anchor]; [apply pr_dec; lia|prs..].
  - destruct (gsub p) as [[c z]|]; cbn [p_sub]; [|constructor]. destruct Ws as [Lc Hz]. constructor.
    + clear - Lc. unfold letter in Lc. cbn in Lc. left. each Lc; vm_compute; discriminate.
    + apply pr_dec. lia.
  - apply pr_flat. eapply Forall_impl; [|exact Wm]. intros [b n] Hn. apply pr_app; [apply pr_sign|apply pr_count; exact Hn].
Qed.
Lemma pr_files f : wf_files f -> pr (p_files f).
Proof.
  destruct f as [f|f o g]; cbn [wf_files p_files]; intros H; [apply pr_dec; lia|].
  apply pr_app; [apply pr_dec; lia|apply pr_app; [apply pr_op|apply pr_dec; lia]].
Qed.
Lemma pr_suffix w s : wf_suffix w s -> pr (p_suffix s).
Proof.
  destruct s as [b n|f l|n i]; cbn [wf_suffix p_suffix]; intros H.
  - apply pr_app; [apply pr_sign|apply pr_count; exact H].
  - inversion H as [|x y Hf Hl]; subst. apply pr_app; [prs|]. apply pr_app; [apply pr_files; exact Hf|].
    apply pr_app; [|prs]. apply pr_flat. eapply Forall_impl; [|exact Hl]. intros g Hg. apply pr_app; [prs|apply pr_files; exact Hg].
  - destruct H as (Hn & _ & Hi). apply pr_app; [prs|]. apply pr_app; [apply pr_count; exact Hn|].
    destruct i as [[m k]|]; [|constructor]. apply pr_app; [prs|]. apply pr_app; [destruct m; [prs|constructor]|apply pr_count; apply Hi].
Qed.
Lemma pr_gs w g : wf_gs w g -> pr (p_gs g).
Proof.
  apply (gs_mut (fun g => wf_gs w g -> pr (p_gs g)) (fun i => wf_item w i -> pr (p_item i)) (fun a => wf_atom w a -> pr (p_atom a))).
  - intros i IH H. exact (IH H).
  - intros i IHi g0 IHg (Hi & Hg). cbn [p_gs]. apply pr_app; [exact (IHi Hi)|apply pr_app; [prs|exact (IHg Hg)]].
  - intros a IH ss (Ha & Hs & _). cbn [p_item]. apply pr_app; [exact (IH Ha)|]. apply pr_flat. eapply Forall_impl; [|exact Hs].
    intros s Hx. apply (pr_suffix w). exact Hx.
  - intros p H. apply pr_per. exact H.
  - intros p o q (Hp & Hq & _). cbn [p_atom]. apply pr_app; [apply pr_per; exact Hp|apply pr_app; [apply pr_op|apply pr_per; exact Hq]].
  - intros g0 IH H. cbn [p_atom]. apply pr_app; [prs|apply pr_app; [exact (IH H)|prs]].
Qed.
Lemma delivered_app s : forall col t, pr s -> exists col', delivered col (s ++ t) = s ++ delivered col' t.
Proof.
  induction s as [|c s IH]; intros col t H; [exists col; reflexivity|]. inversion H as [|x l Hc Hs]; subst. cbn [app delivered].
  destruct (32 <=? code c) eqn:E; [destruct (IH (col + 1) t Hs) as (k & ->); exists k; reflexivity|].
  destruct (code c =? 9) eqn:E9; [lia|]. destruct (code c =? 10) eqn:E10; [|lia]. destruct (IH 0 t Hs) as (k & ->). exists k. reflexivity.
Qed.

Lemma default_view c : okc c -> view (default_file c) = match v_files (view c) with None => give (F1 1) (view c) | Some _ => view c end.
Proof.
  intros (_ & _ & H). unfold default_file. destruct (fnb0 c =? 0) eqn:E.
  - unfold view at 2. cbn [v_files]. rewrite (proj1 H ltac:(lia)). reflexivity.
  - unfold view at 2. cbn [v_files]. destruct (opf c) eqn:O; [reflexivity|]. exfalso. pose proof (proj2 H eq_refl). lia.
Qed.
Lemma COL_cc_ok e w g t c2 : describes e w -> wf_gs w g -> mild_gs w g ->
  (match t with [] => True | c :: _ => c = ")"%char end) ->
  exists l b, COL_cc e c2 (p_gs g ++ t) = Done (Some l, b) /\ map view l = v_cols w g /\ Forall okc l.
Proof.
  intros D W M T. unfold COL_cc, opened. cbn [rest].
  assert (X : exists t', delivered 0 (p_gs g ++ t) = p_gs g ++ t' /\ (match t' with [] => True | c :: _ => c = ")"%char end)).
  { destruct (delivered_app (p_gs g) 0 t (pr_gs w g W)) as (k & E). exists (delivered k t). split; [exact E|].
    destruct t as [|c r]; [exact I|]. subst c. reflexivity. }
  destruct X as (t' & E & T'). rewrite E.
  set (fuel := S (S (2 * length (p_gs g ++ t')))).
  destruct (gs_ok e w D g W M fuel [] t' Y_NONE [] c2 T' ltac:(unfold fuel; rewrite app_length; lia)) as (l & t1 & v1 & c1 & R & V & K).
  change (mkG (mkY (p_gs g ++ t') Y_NONE [] false) c2) with (plain (p_gs g ++ t') Y_NONE [] c2). change (mkR 0 0) with R0. rewrite R.
  unfold gret. cbn [ibind]. exists (map default_file l), c1. split; [reflexivity|]. split.
  2: { apply Forall_map. eapply Forall_impl; [|exact K]. intros c (V0 & V1 & H). unfold default_file. destruct (fnb0 c =? 0) eqn:E0; [|exact (conj V0 (conj V1 H))].
       split; [exact V0|]. split; [exact V1|]. cbn. split; [lia|discriminate]. }
  unfold v_cols. rewrite <- V, !map_map. apply map_ext_in. intros c Hc. rewrite Forall_forall in K. apply default_view. apply K. exact Hc.
Qed.

(** * What every accepted text gives *)

Definition okx (c : col) : Prop := valid_period (per0 c) /\ (fnb0 c = 0 /\ opf c = None \/ 1 <= fnb0 c <= 10 /\ opf c <> None).
Definition fine (l : list col) : Prop := l <> [] /\ Forall okx l.
Definition sound {X} (P : X -> Prop) (r : gio X) : Prop := match r with Done (Some x, _) => P x | _ => True end.
Lemma sound_bind {X Y} (P : X -> Prop) (Q : Y -> Prop) (r : gio X) (f : X -> gst -> gio Y) :
  sound P r -> (forall x s, P x -> sound Q (f x s)) -> sound Q (gbind r f).
Proof. intros H K. unfold gbind. destruct r as [[[x|] s]| | |]; cbn in *; auto. Qed.
Lemma sound_try {X Y} (Q : Y -> Prop) (r : io X) (f : X -> gio Y) : (forall x, r = Done x -> sound Q (f x)) -> sound Q (ibind r f).
Proof. intros K. destruct r as [x| | |]; cbn; auto. Qed.
Lemma set_step p n : (exists nb, nb_per_year (per p) = Ok nb /\ 1 <= n <= nb) -> valid_period p -> valid_period (first_step p n).
Proof.
  intros (nb & E & B) (m & H & _). exists nb. cbn [first_step per step]. rewrite (sub_nb _ _ H) in E. injection E as <-. auto.
Qed.
Lemma nb_valid p : valid_period p -> exists nb, nb_per_year (per p) = Ok nb /\ 1 <= nb.
Proof. intros (nb & H & B). exists nb. split; [apply sub_nb; exact H|lia]. Qed.

Section Env.
Variables (e : genv) (w : world).
Hypothesis D : describes e w.

Lemma read_shifts_valid fuel : forall p c s, valid_period p -> sound valid_period (read_shifts fuel e p c s).
Proof.
  induction fuel as [|k IH]; intros p c s V; [exact I|]. cbn [read_shifts].
  destruct (match c with Some c => if code c =? 60 then Some (-1) else if code c =? 62 then Some 1 else None | None => None end) as [sg|]; [|exact V].
  apply sound_try. intros [n s1] _. destruct (n <? 0) eqn:N; [exact I|].
  apply sound_try. intros q Eq. destruct (getch (gskip s1)) as [d s2]. apply IH.
  destruct (nb_valid p V) as (nb & Enb & B).
  destruct (n =? 0) eqn:N0.
  - destruct (0 <? sg).
    + rewrite Enb in Eq. cbn [of_res ibind] in Eq. injection Eq as <-. apply set_step; [exists nb; split; [exact Enb|lia]|exact V].
    + injection Eq as <-. apply set_step; [exists nb; split; [exact Enb|lia]|exact V].
  - destruct (shift_further p (sg * n) V) as (Es & Vs). rewrite Es in Eq. cbn [of_res] in Eq. injection Eq as <-. exact Vs.
Qed.
Lemma first_valid p : valid_period p -> valid_period (first_step p 1).
Proof. intros V. destruct (nb_valid p V) as (nb & E & B). apply set_step; [exists nb; split; [exact E|lia]|exact V]. Qed.
Lemma read_gper_valid s : sound valid_period (read_gper e s).
Proof.
  unfold read_gper. apply sound_try. intros [t s1] _. apply sound_try. intros start Es.
  destruct start as [p|]; [|exact I].
  assert (V : valid_period p).
  { pose proof (now_step e w D) as (_ & _ & Nw). destruct D as ((nb & E) & V1 & V2 & V3 & _).
    destruct t; try discriminate Es; try rewrite E in Es; try rewrite Nw in Es; cbn [need ibind s_start s_end] in Es; injection Es as <-;
      try (apply first_valid); try assumption.
    exists 1. split; [constructor|cbn; lia]. }
  destruct (getch s1) as [c s2].
  set (up := match c with Some c => if (97 <=? code c) && (code c <=? 122) then chr (code c - 32) else c | None => nul end).
  destruct (per_count up) as [nb|] eqn:Pc; [|apply read_shifts_valid; exact V].
  apply sound_try. intros [t2 s3] _. destruct t2; try exact I.
  destruct ((z <? 1) || (nb <? z)) eqn:B; [exact I|]. destruct (getch (gskip s3)) as [d s4]. apply read_shifts_valid.
  exists nb. cbn [per step]. split; [|lia]. clear - Pc. unfold per_count in Pc.
  assert (X : forall z, code up = z -> up = chr z) by (intros z <-; symmetry; apply chr_code).
  destruct (code up =? 89) eqn:C1; [injection Pc as <-; rewrite (X 89) by lia; constructor|].
  destruct (code up =? 83) eqn:C2; [injection Pc as <-; rewrite (X 83) by lia; constructor|].
  destruct (code up =? 81) eqn:C3; [injection Pc as <-; rewrite (X 81) by lia; constructor|].
  destruct (code up =? 77) eqn:C4; [injection Pc as <-; rewrite (X 77) by lia; constructor|].
  destruct (code up =? 87) eqn:C5; [injection Pc as <-; rewrite (X 87) by lia; constructor|].
  destruct (code up =? 68) eqn:C6; [injection Pc as <-; rewrite (X 68) by lia; constructor|discriminate].
Qed.
Lemma read_y_valid s : sound fine (read_y e s).
Proof.
  unfold read_y. eapply sound_bind; [apply read_gper_valid|]. intros p s1 V. apply sound_try. intros [t s2] _.
  assert (K : forall o q, fine [mkC o p q None 0 0]).
  { intros o q. split; [discriminate|]. constructor; [|constructor]. split; [exact V|left; split; reflexivity]. }
  destruct t as [| | | | | | | | | | | | | | | | |o| | |]; try apply K.
  destruct o; try exact I; (eapply sound_bind; [apply read_gper_valid|]; intros q s3 _; apply K).
Qed.
Definition okf (f : fil) : Prop := 1 <= fl_1 f <= 10 /\ fl_op f <> None.
Lemma read_1f_valid s : sound okf (read_1f s).
Proof.
  unfold read_1f. apply sound_try. intros [t s1] _. destruct t as [| | | | | | | | | | | | | | | | |o|z| |]; try exact I.
  destruct ((z <? 1) || (10 <? z)) eqn:B; [exact I|].
  apply sound_try. intros [t2 s2] _. cbv zeta.
  assert (K1 : okf (mkF (Some NOP) z 0)) by (split; [cbn; lia|discriminate]).
  assert (K2 : forall o, sound okf (try '(t3, s3) <- glex s2; match t3 with LONG z2 => gret (mkF (Some o) z (to_short z2)) s3 | _ => gfail s3 end)).
  { intros o. apply sound_try. intros [t3 s3] _. destruct t3; try exact I. split; [cbn; lia|discriminate]. }
  destruct t2 as [| | | | | | | | | | | | | | | | |o| | |]; try exact K1. destruct o; try exact K1; apply K2.
Qed.
Lemma read_f_valid fuel : forall acc s, Forall okf acc -> sound (fun l => l <> [] /\ Forall okf l) (read_f fuel acc s).
Proof.
  induction fuel as [|k IH]; intros acc s F; [exact I|]. cbn [read_f]. eapply sound_bind; [apply read_1f_valid|]. intros f s1 Hf.
  assert (F' : Forall okf (acc ++ [f])) by (apply Forall_app; split; [exact F|constructor; [exact Hf|constructor]]).
  apply sound_try. intros [t s2] _. destruct t; try exact I; [|apply IH; exact F'].
  split; [destruct acc; discriminate|exact F'].
Qed.
Lemma shift_cols_fine b l : forall n l', Forall okx l -> 0 <= n \/ n <> 0 -> shift_cols b n l = Ok l' -> Forall okx l' /\ length l' = length l.
Proof.
  induction l as [|c l IH]; intros n l' F N; cbn [shift_cols]; [intros [= <-]; split; [constructor|reflexivity]|].
  inversion F as [|x y (V & Kf) Fl]; subst. destruct (nb_valid _ V) as (nb & Enb & B).
  destruct (n =? 0) eqn:N0.
  - destruct (match b with true => _ | false => _ end) as [m| |] eqn:Em; cbn [rbind]; try discriminate.
    destruct (shift_cols b n l) as [r| |] eqn:R; cbn [rbind]; try discriminate. intros [= <-].
    destruct (IH n r Fl N R) as (Fr & Lr). split; [|cbn; lia]. constructor; [|exact Fr]. split; [|exact Kf]. cbn [per0].
    apply set_step; [|exact V]. exists nb. split; [exact Enb|]. destruct b; [injection Em as <-; lia|].
    rewrite Enb in Em. injection Em as <-. lia.
  - destruct (shift_further (per0 c) (if b then - n else n) V) as (Es & Vs). rewrite Es. cbn [rbind].
    destruct (match opy c with NOP => _ | _ => _ end) as [q| |]; cbn [rbind]; try discriminate.
    destruct (shift_cols b (if b then - n else n) l) as [r| |] eqn:R; cbn [rbind]; try discriminate. intros [= <-].
    destruct (IH _ r Fl ltac:(destruct b; lia) R) as (Fr & Lr). split; [|cbn; lia]. constructor; [|exact Fr]. split; [exact Vs|exact Kf].
Qed.
Lemma moved_col_fine c n c' : okx c -> moved_col c n = Ok c' -> okx c'.
Proof.
  intros (V & K). unfold moved_col. destruct (shift_further (per0 c) n V) as (Es & Vs). rewrite Es. cbn [rbind].
  destruct (match opy c with NOP | BASE => _ | _ => _ end) as [q| |]; cbn [rbind]; try discriminate. intros [= <-]. split; [exact Vs|exact K].
Qed.
Lemma mapM_all {X Y} (P : X -> Prop) (Q : Y -> Prop) (f : X -> res Y) l : (forall x y, P x -> f x = Ok y -> Q y) ->
  forall r, Forall P l -> mapM f l = Ok r -> Forall Q r.
Proof.
  intros H. induction l as [|x l IH]; intros r F; cbn [mapM]; [intros [= <-]; constructor|].
  inversion F as [|a b Hx Hl]; subst. destruct (f x) as [y| |] eqn:E; cbn [rbind]; try discriminate.
  destruct (mapM f l) as [r'| |]; cbn [rbind]; try discriminate. intros [= <-]. constructor; [exact (H x y Hx E)|apply IH; auto].
Qed.
Lemma construct_fine cls l fs r l' : Forall okx cls -> fine l -> (forall x, fs = Some x -> x <> [] /\ Forall okf x) -> 0 <= r_nb r ->
  construct cls l fs r = Ok l' -> fine l'.
Proof.
  intros Fc (Ne & Fl) Hf Nr. unfold construct.
  set (fs' := match fs with Some l => l | None => [mkF None 0 0] end).
  set (r' := if r_nb r =? 0 then mkR 1 1 else r).
  assert (Hr : 1 <= r_nb r') by (unfold r'; destruct (r_nb r =? 0) eqn:E; cbn; lia).
  assert (Hfs : fs' <> [] /\ Forall (fun f => okf f \/ f = mkF None 0 0) fs').
  { unfold fs'. destruct fs as [x|]; [|split; [discriminate|constructor; [right; reflexivity|constructor]]].
    destruct (Hf x eq_refl) as (A & B). split; [exact A|]. eapply Forall_impl; [|exact B]. auto. }
  destruct Hfs as (Nf & Ff). clearbody fs' r'.
  destruct (mapM _ _) as [ll| |] eqn:E; cbn [rbind]; try discriminate. intros [= <-].
  assert (Q : Forall (fun x => x <> [] /\ Forall okx x) ll).
  { eapply (mapM_all (fun _ => True)); [|apply Forall_forall; auto|exact E]. intros i x _ Ei. cbv beta in Ei. split.
    - pose proof (mapM_len _ _ _ Ei). destruct l; [congruence|]. destruct x; [discriminate|discriminate].
    - eapply (mapM_all okx okx); [|exact Fl|exact Ei]. intros a b Ha Eb. exact (moved_col_fine a _ b Ha Eb). }
  assert (Ln : ll <> []).
  { pose proof (mapM_len _ _ _ E) as L. destruct (Z.to_nat (r_nb r')) as [|k] eqn:Ek; [lia|]. cbn [seqZ length] in L.
    destruct ll; [discriminate|discriminate]. }
  assert (G : Forall okx (flat_map (with_files fs') (concat ll)) /\ flat_map (with_files fs') (concat ll) <> []).
  { destruct ll as [|x ll]; [congruence|]. inversion Q as [|a b (Nx & Fx) Fll]; subst. destruct x as [|c x]; [congruence|].
    assert (Fa : Forall okx (concat ((c :: x) :: ll))).
    { clear - Fx Fll. cbn [concat]. apply Forall_app. split; [exact Fx|]. induction Fll as [|y ll (_ & Fy) _ IH]; [constructor|]. cbn. apply Forall_app. auto. }
    split.
    - apply Forall_flat. eapply Forall_impl; [|exact Fa]. intros d Hd. unfold with_files. destruct (fnb0 d =? 0); [|constructor; [exact Hd|constructor]].
      apply Forall_map. eapply Forall_impl; [|exact Ff]. intros f Hf'. destruct Hd as (Vd & _). split; [exact Vd|]. cbn.
      destruct Hf' as [(B & N)|Z0]; [right; auto|subst f; left; auto].
    - cbn [concat app flat_map]. unfold with_files at 1. destruct (fnb0 c =? 0); [|discriminate]. destruct fs'; [congruence|discriminate]. }
  destruct G as (G1 & G2). split; [destruct cls; [exact G2|discriminate]|]. apply Forall_app. auto.
Qed.
Lemma read_cols_fine fuel : forall cls tmp fs r s, Forall okx cls -> (forall l, tmp = Some l -> fine l) ->
  (forall x, fs = Some x -> x <> [] /\ Forall okf x) -> 0 <= r_nb r -> sound fine (read_cols fuel e cls tmp fs r s).
Proof.
  induction fuel as [|k IH]; intros cls tmp fs r s Fc Ft Ff Nr; [exact I|]. cbn [read_cols].
  apply sound_try. intros [t s1] _. cbv zeta.
  assert (Sh : forall b, sound fine (match tmp with None => gfail s1 | Some l => try '(n, s2) <- read_long_per e s1;
     if n <? 0 then gfail s2 else try l' <- of_res (shift_cols b n l); read_cols k e cls (Some l') fs r s2 end)).
  { intros b. destruct tmp as [l|]; [|exact I]. apply sound_try. intros [n s2] _. destruct (n <? 0) eqn:N; [exact I|].
    destruct (shift_cols b n l) as [l'| |] eqn:E; cbn [of_res ibind]; try exact I.
    destruct (Ft l eq_refl) as (Ne & Fl). destruct (shift_cols_fine b l n l' Fl ltac:(lia) E) as (Fl' & L).
    apply IH; auto. intros x [= <-]. split; [destruct l'; [destruct l; [congruence|discriminate]|discriminate]|exact Fl']. }
  assert (Cl : forall more : bool, sound fine (match tmp with None => gfail s1 | Some l => try cls' <- of_res (construct cls l fs r);
     if more then read_cols k e cls' None None (mkR 0 0) s1 else gret cls' s1 end)).
  { intros more. destruct tmp as [l|]; [|exact I]. destruct (construct cls l fs r) as [cls'| |] eqn:E; cbn [of_res ibind]; try exact I.
    pose proof (construct_fine cls l fs r cls' Fc (Ft l eq_refl) Ff Nr E) as G. destruct more; [|exact G].
    apply IH; [apply G|discriminate|discriminate|cbn; lia]. }
  assert (Yr : sound fine (match tmp with Some _ => gfail s1 | None => gbind (read_y e (gunread s1)) (fun l s2 => read_cols k e cls (Some l) fs r s2) end)).
  { destruct tmp; [exact I|]. eapply sound_bind; [apply read_y_valid|]. intros l s2 Hl. apply IH; auto. intros x [= <-]. exact Hl. }
  destruct t; try exact I; try exact Yr; try exact (Sh true); try exact (Sh false); try exact (Cl true); try exact (Cl false).
  - destruct tmp as [l|], fs as [x|]; try exact I.
    eapply sound_bind; [apply read_f_valid; constructor|]. intros x s2 Hx. apply IH; auto. intros y [= <-]. exact Hx.
  - destruct tmp; [exact I|]. eapply sound_bind; [apply IH; [constructor|discriminate|discriminate|cbn; lia]|].
    intros l s2 Hl. apply IH; auto. intros x [= <-]. exact Hl.
  - destruct tmp as [l|]; [|exact I]. destruct (0 <? r_nb r); [exact I|].
    apply (sound_bind (fun r => 0 <= r_nb r)).
    + unfold read_rep. apply sound_try. intros [n s2] _. destruct (to_short n <? 0) eqn:N; [exact I|].
      apply sound_try. intros [t2 s3] _. destruct t2; try (cbn; lia).
      apply sound_try. intros [t3 s4] _. destruct (match t3 with OP DIFF => _ | _ => _ end) as [sg s5].
      apply sound_try. intros [i s6] _. destruct (to_short i <? 0); [exact I|]. cbn. lia.
    + intros r' s2 Hr. apply IH; auto.
Qed.
Lemma COL_cc_fine c2 t l b : COL_cc e c2 t = Done (Some l, b) -> l <> [] /\ Forall (fun c => valid_period (per0 c) /\ opf c <> None /\ 1 <= fnb0 c <= 10) l.
Proof.
  unfold COL_cc. intros H.
  pose proof (read_cols_fine (S (S (2 * length (rest (opened t))))) [] None None (mkR 0 0) (mkG (opened t) c2) ltac:(constructor)
    ltac:(discriminate) ltac:(discriminate) ltac:(cbn; lia)) as F.
  destruct (read_cols _ _ _ _ _ _ _) as [[o s]| | |]; cbn [ibind] in H; try discriminate. destruct o as [l0|]; [|discriminate].
  injection H as <- _. cbn in F. destruct F as (Ne & Fl). split; [destruct l0; [congruence|discriminate]|].
  apply Forall_map. eapply Forall_impl; [|exact Fl]. intros c (V & K). unfold default_file. destruct (fnb0 c =? 0) eqn:E.
  - cbn. split; [exact V|]. split; [discriminate|lia].
  - split; [exact V|]. destruct K as [(Z0 & _)|(B & N)]; [lia|]. auto.
Qed.
End Env.
