(** Sequences of exchanges. *)
From Coq Require Import ZArith Ascii String List Bool Lia Relations.
From Verif Require Import M_Base M_Names M_Lex M_Bytes M_Order M_Exo2endo S_Order S_Exo2endo L_Names L_Order L_Order3 L_Order5 L_Exo L_Exo2.
Import ListNotations.
Open Scope Z_scope.

(** * Any sequence *)

Lemma put_endo m1 e p m2 : posxk m2 = put_at (posxk m1) e p -> (e < length (posxk m1))%nat ->
  forall k w, endo_of m2 k w <-> (k = e /\ w = p) \/ (k <> e /\ endo_of m1 k w).
Proof.
  intros E Hl k w. unfold endo_of. rewrite E, put_at_nth. destruct (Nat.eqb_spec e k) as [Ek|N].
  - subst k. destruct (Nat.ltb_spec e (length (posxk m1))) as [Q|Q]; [|lia].
    split; [intros R; inversion R; auto|]. intros [[_ ->]|[? _]]; congruence.
  - split; [intros R; right; auto|]. intros [[? _]|[_ R]]; [congruence|exact R].
Qed.

Section Any.
Variable vars dbe : list str.
Variable m : model.
Variable exo : Z.
Hypothesis L : linked m.
Hypothesis Exo0 : 0 <= exo < len (posrev m).
Hypothesis Ldbe : length dbe = length (objs m).
Hypothesis NotEq : exists q, get_eq_position m exo = Ok q /\ q < 0.

Definition at_eq (v : Z) (k : nat) : Prop := get_eq_position m v = Ok (Z.of_nat k).

Lemma at_eq_fun v k j : at_eq v k -> at_eq v j -> k = j.
Proof. unfold at_eq. intros A B. rewrite A in B. inversion B. lia. Qed.
Lemma at_eq_lt v k : -1 <= v < len (posrev m) -> at_eq v k -> (k < length (objs m))%nat.
Proof. intros H A. destruct (gep_ok m v L H) as (p & E & B). unfold at_eq in A. rewrite A in E. inversion E. subst. unfold len in B. lia. Qed.
Lemma at_eq_pos v k : at_eq v k -> 0 <= v.
Proof. unfold at_eq, get_eq_position. destruct (Z.ltb_spec v 0); [|lia]. intros E; inversion E. lia. Qed.
Lemma exo_not k : ~ at_eq exo k.
Proof. destruct NotEq as (q & E & Hq). unfold at_eq. rewrite E. intros Q; inversion Q. lia. Qed.

Record kept (path path' : list bool) (e : nat) (v : Z) (m' : model) : Prop := {
  k_objs : objs m' = objs m;
  k_len : length (posxk m') = length (posxk m);
  k_lenr : length (posrev m') = length (posrev m);
  k_rev : forall k w, endo_of m' k w -> 0 <= w /\ nth_error (posrev m') (Z.to_nat w) = Some (Z.of_nat k);
  k_revr : forall x p, nth_error (posrev m') x = Some p -> -1 <= p < len (objs m);
  k_new : forall k w, endo_of m' k w -> endo_of m k w \/ w = exo \/ exists j, at_eq w j /\ ((j <> e /\ ~ on path j /\ on path' j) \/ (~ on path e /\ j = e));
  k_gone : on path e -> forall k, ~ endo_of m' k v
}.

Definition fine (path : list bool) (e : nat) (v : Z) (r : res (model * list bool * bool)) : Prop :=
  r = Throw \/ exists m' path' ok, r = Ok (m', path', ok) /\ length path' = length path /\
    (forall k, on path k -> on path' k) /\ (ok = true -> kept path path' e v m') /\ (ok = false -> m' = m).

Lemma direct_kept path e v : at_eq v e -> (e < length (objs m))%nat ->
  exists m', assign m (Z.of_nat e) exo = Ok m' /\ kept path path e v m'.
Proof.
  intros He Hl. eexists. split.
  { apply assign_ok; [rewrite (l_len m L); exact Hl|exact Exo0]. }
  set (m2 := mkM _ _ _).
  assert (XK : forall k w, endo_of m2 k w <-> (k = e /\ w = exo) \/ (k <> e /\ endo_of m k w)).
  { apply put_endo; [reflexivity|]. rewrite (l_len m L). exact Hl. }
  constructor; unfold m2; cbn [objs posxk posrev]; fold m2.
  - reflexivity.
  - apply put_at_length.
  - apply put_at_length.
  - intros k w Hw. apply XK in Hw as [[-> ->]|[Hk H]].
    + split; [lia|]. apply put_at_same. unfold len in Exo0. lia.
    + destruct (l_endo m L k w H) as [A B]. split; [exact A|]. rewrite put_at_nth.
      destruct (Nat.eqb_spec (Z.to_nat exo) (Z.to_nat w)) as [Q|Q]; [|exact B].
      exfalso. apply (exo_not k). replace exo with w by lia. now apply gep_endo.
  - intros x p Hx. rewrite put_at_nth in Hx. destruct (Nat.eqb_spec (Z.to_nat exo) x).
    + destruct (Nat.ltb (Z.to_nat exo) (length (posrev m))); [|discriminate]. inversion Hx. unfold len. lia.
    + now apply (l_rev m L) in Hx.
  - intros k w Hw. apply XK in Hw as [[-> ->]|[_ H]]; auto.
  - intros _ k Hk. apply XK in Hk as [[-> E]|[Hk H]]; [subst v; now apply (exo_not e)|].
    apply Hk. apply (at_eq_fun v); [now apply gep_endo|exact He].
Qed.

Lemma step_kept path path1 path' e k1 v pos m' : at_eq v e -> (e < length (objs m))%nat -> e <> k1 -> at_eq pos k1 -> pos < len (posrev m) ->
  (forall k, on path k -> on path1 k) -> on path1 k1 -> ~ on path k1 -> (forall k, k <> k1 -> on path1 k -> on path k) ->
  (forall k, on path1 k -> on path' k) -> kept path1 path' k1 pos m' ->
  exists m'', assign m' (Z.of_nat e) pos = Ok m'' /\ kept path path' e v m''.
Proof.
  intros He Hl Hne Hk1 Hpl P1 P2 P3 P4 P5 W. assert (Hp0 := at_eq_pos pos k1 Hk1).
  assert (Hlx : (e < length (posxk m'))%nat) by (rewrite (k_len _ _ _ _ _ W), (l_len m L); exact Hl).
  eexists. split.
  { apply assign_ok; [exact Hlx|]. unfold len in *. rewrite (k_lenr _ _ _ _ _ W). lia. }
  set (m2 := mkM _ _ _).
  assert (XK : forall k w, endo_of m2 k w <-> (k = e /\ w = pos) \/ (k <> e /\ endo_of m' k w)) by (apply put_endo; [reflexivity|exact Hlx]).
  assert (D2 := k_gone _ _ _ _ _ W P2).
  assert (New : forall k w, endo_of m' k w -> endo_of m k w \/ w = exo \/ exists j, at_eq w j /\ ~ on path j /\ on path' j).
  { intros k w Hw. destruct (k_new _ _ _ _ _ W k w Hw) as [Q|[Q|(j & Q1 & [(Q2 & Q3 & Q4)|[Q2 Q3]])]]; [auto|auto| |contradiction].
    right. right. exists j. split; [exact Q1|]. split; [|exact Q4]. intros R. apply Q3. now apply P1. }
  constructor; unfold m2; cbn [objs posxk posrev]; fold m2.
  - exact (k_objs _ _ _ _ _ W).
  - rewrite put_at_length. exact (k_len _ _ _ _ _ W).
  - rewrite put_at_length. exact (k_lenr _ _ _ _ _ W).
  - intros k w Hw. apply XK in Hw as [[-> ->]|[Hk H]].
    + split; [exact Hp0|]. apply put_at_same. rewrite (k_lenr _ _ _ _ _ W). unfold len in Hpl. lia.
    + destruct (k_rev _ _ _ _ _ W k w H) as [A B]. split; [exact A|]. rewrite put_at_nth.
      destruct (Nat.eqb_spec (Z.to_nat pos) (Z.to_nat w)) as [Q|Q]; [|exact B].
      exfalso. apply (D2 k). replace pos with w by lia. exact H.
  - intros x p Hx. rewrite put_at_nth in Hx. destruct (Nat.eqb_spec (Z.to_nat pos) x).
    + destruct (Nat.ltb (Z.to_nat pos) (length (posrev m'))); [|discriminate]. inversion Hx. unfold len. lia.
    + now apply (k_revr _ _ _ _ _ W) in Hx.
  - intros k w Hw. apply XK in Hw as [[-> ->]|[_ H]].
    + right. right. exists k1. split; [exact Hk1|]. left. split; [congruence|]. auto.
    + destruct (New k w H) as [Q|[Q|(j & Q1 & Q2 & Q3)]]; [auto|auto|]. right. right. exists j. split; [exact Q1|].
      destruct (Nat.eq_dec j e) as [Ej|Nj]; [right; subst j; auto|left; auto].
  - intros Hon k Hk. apply XK in Hk as [[-> E]|[Hk H]].
    + subst v. apply Hne. now apply (at_eq_fun pos).
    + destruct (New k v H) as [Q|[Q|(j & Q1 & Q2 & Q3)]].
      * apply Hk. apply (at_eq_fun v); [now apply gep_endo|exact He].
      * subst v. now apply (exo_not e).
      * assert (j = e) by now apply (at_eq_fun v). subst j. contradiction.
Qed.

Lemma try_fine f e v (IH : forall path k w, length path = length (objs m) -> at_eq w k -> w < len (posrev m) ->
     fine path k w (find_path f vars dbe exo w m path)) :
  at_eq v e -> (e < length (objs m))%nat ->
  forall o', (forall n p, In (n, p) o' -> is_coefficient n = false -> -1 <= p < len (posrev m)) ->
  forall path, length path = length (objs m) -> fine path e v (try_objs (find_path f vars dbe exo) (Z.of_nat e) o' m path).
Proof.
  intros He Hl. induction o' as [|[n p] o' IHo]; intros Hocc path Lp; cbn [try_objs].
  { right. exists m, path, false. split; [reflexivity|]. split; [reflexivity|]. split; [auto|]. split; [discriminate|auto]. }
  assert (Hocc' : forall n p, In (n, p) o' -> is_coefficient n = false -> -1 <= p < len (posrev m)) by (intros; eapply Hocc; [right|]; eauto).
  assert (Skip := IHo Hocc' path Lp).
  destruct (is_coefficient n) eqn:Cn; [exact Skip|].
  assert (Op : -1 <= p < len (posrev m)) by (eapply Hocc; [left; reflexivity|exact Cn]).
  destruct (gep_ok m p L Op) as (q & Eq & Bq). rewrite Eq. cbn [rbind].
  destruct (Z.eqb_spec (Z.of_nat e) q) as [_|Ne]; [exact Skip|]. destruct (Z.ltb_spec q 0) as [_|Hq]; [exact Skip|]. cbn [orb].
  set (k1 := Z.to_nat q). assert (Eq1 : q = Z.of_nat k1) by (unfold k1; lia).
  assert (Hk1 : at_eq p k1) by (unfold at_eq; now rewrite <- Eq1).
  assert (Hl1 : (k1 < length path)%nat) by (rewrite Lp; now apply (at_eq_lt p)).
  destruct (nth_ex path k1 Hl1) as [seen Hseen]. rewrite Eq1, (getz_some path k1 seen Hseen). cbn [rbind].
  destruct seen; [exact Skip|]. rewrite setz_ok by exact Hl1. cbn [rbind].
  set (path1 := put_at path k1 true).
  assert (Lp1 : length path1 = length (objs m)) by (unfold path1; rewrite put_at_length; exact Lp).
  assert (P1 : forall k, on path k -> on path1 k).
  { intros k Hk. unfold on, path1. rewrite put_at_nth. destruct (Nat.eqb_spec k1 k); [|exact Hk].
    destruct (Nat.ltb_spec k1 (length path)); [reflexivity|lia]. }
  assert (P2 : on path1 k1) by (unfold on, path1; apply put_at_same; exact Hl1).
  assert (P3 : ~ on path k1) by (unfold on; congruence).
  assert (P4 : forall k, k <> k1 -> on path1 k -> on path k).
  { intros k Hk. unfold on, path1. rewrite put_at_nth. destruct (Nat.eqb_spec k1 k); [congruence|auto]. }
  destruct (IH path1 k1 p Lp1 Hk1) as [E|(m' & path' & ok & E & A & B & C & D)]; [lia| |].
  { rewrite E. now left. }
  rewrite E. cbn [rbind]. destruct ok.
  - assert (Nk : e <> k1) by lia.
    destruct (step_kept path path1 path' e k1 v p m' He Hl Nk Hk1 (proj2 Op) P1 P2 P3 P4 B (C eq_refl)) as (m'' & E2 & W).
    rewrite E2. cbn [rbind]. right. exists m'', path', true. split; [reflexivity|]. split; [congruence|]. split; [auto|]. split; [auto|discriminate].
  - assert (Em := D eq_refl). subst m'.
    destruct (IHo Hocc' path') as [E3|(m3 & path3 & ok3 & E3 & A3 & B3 & C3 & D3)]; [congruence|now left|].
    right. exists m3, path3, ok3. split; [exact E3|]. split; [congruence|]. split; [auto|]. split; [|exact D3].
    intros Q. destruct (C3 Q) as [S1 S2 S3 S4 S5 S6 S7]. constructor; auto.
    + intros k w Hw. destruct (S6 k w Hw) as [R|[R|(j & R1 & [(R2 & R3 & R4)|[R2 R3]])]]; [auto|auto| |].
      * right. right. exists j. split; [exact R1|]. left. split; [exact R2|]. split; [|exact R4]. intros T. apply R3. auto.
      * right. right. exists j. split; [exact R1|]. right. split; [|exact R3]. intros T. apply R2. auto.
Qed.

Lemma find_fine : forall f path e v, length path = length (objs m) -> at_eq v e -> v < len (posrev m) ->
  fine path e v (find_path f vars dbe exo v m path).
Proof.
  induction f as [|f IH]; intros path e v Lp He Hv.
  { right. exists m, path, false. split; [reflexivity|]. split; [reflexivity|]. split; [auto|]. split; [discriminate|auto]. }
  cbn [find_path]. destruct (Z.ltb_spec exo 0); [lia|]. unfold at_eq in He. rewrite He. cbn [rbind]. fold (at_eq v e) in He.
  assert (Hl : (e < length (objs m))%nat) by (apply (at_eq_lt v); [assert (Q := at_eq_pos v e He); lia|exact He]).
  unfold name_at. destruct (Z.ltb_spec v 0); [now left|]. destruct (nth_error vars (Z.to_nat v)) as [nm|]; [|now left]. cbn [rbind].
  unfold objs_of. destruct (Z.ltb_spec (pos_of dbe nm) 0); [now left|].
  assert (Bq := pos_of_min dbe nm). unfold len in Bq. rewrite Ldbe in Bq.
  assert (Hq : (Z.to_nat (pos_of dbe nm) < length (objs m))%nat) by lia.
  destruct (nth_ex (objs m) _ Hq) as [o Ho]. assert (Eo : getz (objs m) (pos_of dbe nm) = Ok o).
  { replace (pos_of dbe nm) with (Z.of_nat (Z.to_nat (pos_of dbe nm))) by lia. now apply getz_some. }
  rewrite Eo. cbn [rbind]. destruct (contains o exo).
  - destruct (direct_kept path e v He Hl) as (m' & E & W). rewrite E. cbn [rbind].
    right. exists m', path, true. split; [reflexivity|]. split; [reflexivity|]. split; [auto|]. split; [auto|discriminate].
  - apply try_fine; auto. intros n p Hin Cn. apply (l_occ m L (Z.to_nat (pos_of dbe nm))). exists o, n. auto.
Qed.
End Any.

Lemma kept_linked m x path path' e v m' : linked m -> kept m x path path' e v m' -> linked m'.
Proof.
  intros L W. constructor.
  - rewrite (k_len _ _ _ _ _ _ _ W), (k_objs _ _ _ _ _ _ _ W). exact (l_len m L).
  - exact (k_rev _ _ _ _ _ _ _ W).
  - intros y p Hy. rewrite (k_objs _ _ _ _ _ _ _ W). now apply (k_revr _ _ _ _ _ _ _ W) in Hy.
  - intros i y Hy. unfold len. rewrite (k_lenr _ _ _ _ _ _ _ W). apply (l_occ m L i y). unfold occurs in *.
    now rewrite (k_objs _ _ _ _ _ _ _ W) in Hy.
Qed.

Definition kept_model (m m' : model) : Prop := linked m' /\ objs m' = objs m /\ length (posrev m') = length (posrev m).

Lemma exchange_any vars dbe m endo exo : linked m -> length dbe = length (objs m) -> length (posrev m) = length vars ->
  exchange vars dbe m endo exo = Throw \/ exchange vars dbe m endo exo = Ok None \/
  exists m', exchange vars dbe m endo exo = Ok (Some m') /\ kept_model m m'.
Proof.
  intros L Ld Lv. unfold exchange.
  destruct (Z.ltb_spec (pos_of vars endo) 0) as [H1|H1]; [auto|].
  destruct (Z.ltb_spec (pos_of vars exo) 0) as [H2|H2]; [auto|].
  assert (B : forall n, -1 <= pos_of vars n < len (posrev m)).
  { intros n. assert (Q := pos_of_min vars n). unfold len in *. rewrite Lv. exact Q. }
  unfold exo_to_endo. destruct (gep_ok m _ L (B endo)) as (e & Ee & Be). rewrite Ee. cbn [rbind].
  destruct (Z.ltb_spec e 0) as [_|He]; [cbn; auto|].
  destruct (gep_ok m _ L (B exo)) as (x & Ex & Bx). rewrite Ex. cbn [rbind]. destruct (Z.leb_spec 0 x) as [_|Hx]; [cbn; auto|].
  destruct (find_fine vars dbe m (pos_of vars exo) L) with (f := S (length (objs m))) (path := repeat false (length (objs m)))
     (e := Z.to_nat e) (v := pos_of vars endo) as [E|(m' & path' & ok & E & _ & _ & C & _)].
  - assert (Q := B exo). lia.
  - exact Ld.
  - eauto.
  - apply repeat_length.
  - unfold at_eq. rewrite Ee. f_equal. lia.
  - apply B.
  - rewrite E. now left.
  - rewrite E. cbn [rbind fst snd]. destruct ok; [|cbn; auto]. right. right. exists m'. split; [reflexivity|].
    split; [eapply kept_linked; eauto|]. split; [exact (k_objs _ _ _ _ _ _ _ (C eq_refl))|exact (k_lenr _ _ _ _ _ _ _ (C eq_refl))].
Qed.

Lemma exchanges_any vars dbe l : forall m, linked m -> length dbe = length (objs m) -> length (posrev m) = length vars ->
  exchanges vars dbe m l = Throw \/ exchanges vars dbe m l = Ok None \/
  exists m', exchanges vars dbe m l = Ok (Some m') /\ kept_model m m'.
Proof.
  induction l as [|[endo exo] l IH]; intros m L Ld Lv; cbn [exchanges].
  - right. right. exists m. split; [reflexivity|]. split; auto.
  - destruct (exchange_any vars dbe m endo exo L Ld Lv) as [E|[E|(m' & E & K1 & K2 & K3)]]; rewrite E; cbn [rbind]; auto.
    destruct (IH m') as [E'|[E'|(m2 & E' & Q1 & Q2 & Q3)]]; [exact K1|congruence|congruence|auto|auto|].
    right. right. exists m2. split; [exact E'|]. split; [exact Q1|]. split; congruence.
Qed.

Lemma exchanges_distinct vars scl eqs m l : NoDup vars -> NoDup (map fst eqs) -> link_model vars scl eqs = Ok (Some m) ->
  exchanges vars (map fst eqs) m l <> UB /\
  forall m', exchanges vars (map fst eqs) m l = Ok (Some m') ->
    (forall k, (k < length eqs)%nat -> exists n, solved_for vars m' k n) /\
    (forall i k n, solved_for vars m' i n -> solved_for vars m' k n -> i = k).
Proof.
  intros NV NE E. assert (G := link_model_good vars scl eqs m NE E). assert (L := linked_m vars eqs m NV NE G).
  destruct (exchanges_any vars (map fst eqs) l m) as [Q|[Q|(m' & Q & K1 & K2 & K3)]];
    [exact L|rewrite map_length; symmetry; exact (g_lo _ _ _ G)|exact (g_lr _ _ _ G)| | |].
  - rewrite Q. split; [discriminate|intros; discriminate].
  - rewrite Q. split; [discriminate|intros; discriminate].
  - rewrite Q. split; [discriminate|]. intros m2 R. inversion R; subst m2. split.
    + intros k Hk. assert (Hl : (k < length (posxk m'))%nat) by (rewrite (l_len m' K1), K2, (g_lo _ _ _ G); exact Hk).
      destruct (nth_ex _ _ Hl) as [w Hw]. destruct (l_endo m' K1 k w Hw) as [A B]. assert (Bl := nth_lt _ _ _ B).
      rewrite K3, (g_lr _ _ _ G) in Bl. destruct (nth_ex vars _ Bl) as [n Hn]. exists n, (Z.to_nat w). split; [|exact Hn].
      replace (Z.of_nat (Z.to_nat w)) with w by lia. exact Hw.
    + intros i k n (x & Hx & Hn) (y & Hy & Hn'). assert (x = y).
      { apply (proj1 (NoDup_nth_error vars) NV); [now apply nth_lt in Hn|congruence]. }
      subst y. destruct (l_endo m' K1 i _ Hx) as [_ A]. destruct (l_endo m' K1 k _ Hy) as [_ B]. rewrite A in B. inversion B. lia.
Qed.

(** * Direct exchanges *)

Fixpoint assoc (n : str) (l : list (str * str)) : option str :=
  match l with [] => None | (a, x) :: l' => if str_eqb n a then Some x else assoc n l' end.
Definition now_endo (D : list (str * str)) (n : str) : str := match assoc n D with Some x => x | None => n end.

Section Direct.
Variable vars : list str.
Variable eqs : list (str * list str).
Variable m0 : model.
Hypothesis NV : NoDup vars.
Hypothesis NE : NoDup (map fst eqs).
Hypothesis G : good vars eqs m0.

Definition usable (p : str * str) : Prop :=
  (exists e, named eqs e (fst p) /\ has_var eqs e (snd p)) /\ ~ exists k, named eqs k (snd p).

Record state (D : list (str * str)) (m : model) : Prop := {
  t_linked : linked m;
  t_objs : objs m = objs m0;
  t_lenr : length (posrev m) = length vars;
  t_endo : forall k w, endo_of m k w <-> exists n ns, nth_error eqs k = Some (n, ns) /\ w = pos_of vars (now_endo D n);
  t_free : forall x, In x vars -> (~ exists k, named eqs k x) -> ~ In x (map snd D) -> nth_error (posrev m) (Z.to_nat (pos_of vars x)) = Some (-1)
}.

Lemma assoc_none n D : ~ In n (map fst D) -> assoc n D = None.
Proof.
  induction D as [|[a x] D IH]; intros H; [reflexivity|]. cbn in *. destruct (str_eqb n a) eqn:E.
  - apply str_eqb_iff in E. exfalso. apply H. now left.
  - apply IH. intros Q. apply H. now right.
Qed.
Lemma assoc_in n D x : assoc n D = Some x -> In (n, x) D.
Proof.
  induction D as [|[a y] D IH]; [discriminate|]. cbn. destruct (str_eqb n a) eqn:E.
  - apply str_eqb_iff in E. intros Q. inversion Q; subst. now left.
  - intros Q. right. auto.
Qed.

Lemma pos_inj a b : In a vars -> pos_of vars a = pos_of vars b -> a = b.
Proof.
  intros Ha H. assert (Q := pos_of_in vars a Ha). assert (A := pos_of_nonneg vars a Q). rewrite H in Q, A. apply pos_of_nonneg in Q. congruence.
Qed.

Lemma now_in D n k : Forall usable D -> named eqs k n -> In (now_endo D n) vars.
Proof.
  intros F Hn. unfold now_endo. destruct (assoc n D) as [x|] eqn:E.
  - apply assoc_in in E. rewrite Forall_forall in F. destruct (F _ E) as [(e & _ & Hv) _]. cbn in Hv. eapply has_var_in; eauto.
  - eapply eq_in_vars; eauto.
Qed.

Lemma direct_step D m a x : state D m -> Forall usable D -> usable (a, x) -> ~ In a (map fst D) -> ~ In x (map snd D) ->
  exists m', exchange vars (map fst eqs) m a x = Ok (Some m') /\ state ((a, x) :: D) m'.
Proof.
  intros T F ((e & Na & Hv) & Nx) Ha Hx. cbn [fst snd] in *.
  assert (Ia : In a vars) by (eapply eq_in_vars; eauto). assert (Ix : In x vars) by (eapply has_var_in; eauto).
  assert (Pa := pos_of_in vars a Ia). assert (Px := pos_of_in vars x Ix).
  assert (Oc : occurs m0 e (pos_of vars x)) by (apply (occurs_names vars eqs m0 G); auto).
  assert (L := t_linked _ _ T).
  destruct Na as [ns Hns].
  assert (Ee : endo_of m e (pos_of vars a)).
  { apply (t_endo _ _ T). exists a, ns. split; [exact Hns|]. unfold now_endo. now rewrite assoc_none. }
  assert (NotE : forall k, ~ endo_of m k (pos_of vars x)).
  { intros k Hk. destruct (l_endo m L k _ Hk) as [_ Q]. rewrite (t_free _ _ T x Ix Nx Hx) in Q. inversion Q. lia. }
  assert (Bx := pos_of_min vars x).
  assert (Ox : 0 <= pos_of vars x < len (posrev m)) by (unfold len in *; rewrite (t_lenr _ _ T); lia).
  assert (Hl : (e < length (posxk m))%nat) by (now apply nth_lt in Ee).
  unfold exchange. destruct (Z.ltb_spec (pos_of vars a) 0); [lia|]. destruct (Z.ltb_spec (pos_of vars x) 0); [lia|].
  unfold exo_to_endo. rewrite (gep_endo m _ e L Ee). cbn [rbind]. destruct (Z.ltb_spec (Z.of_nat e) 0); [lia|].
  assert (Gx : get_eq_position m (pos_of vars x) = Ok (-1)).
  { unfold get_eq_position. destruct (Z.ltb_spec (pos_of vars x) 0); [lia|].
    assert (Gr : getz (posrev m) (pos_of vars x) = Ok (-1)).
    { unfold getz. destruct (Z.ltb_spec (pos_of vars x) 0); [lia|]. now rewrite (t_free _ _ T x Ix Nx Hx). }
    destruct (Z.ltb_spec (pos_of vars x) (nb_eqs m)) as [Hq|Hq]; [|exact Gr].
    assert (Hq' : (Z.to_nat (pos_of vars x) < length (posxk m))%nat) by (rewrite (l_len m L); unfold nb_eqs, len in Hq; lia).
    destruct (nth_ex _ _ Hq') as [w Hw]. unfold getz at 1. destruct (Z.ltb_spec (pos_of vars x) 0); [lia|]. rewrite Hw. cbn [rbind].
    destruct (Z.eqb_spec w (pos_of vars x)) as [Q|Q]; [|exact Gr]. exfalso. rewrite Q in Hw. exact (NotE _ Hw). }
  rewrite Gx. cbn [rbind]. change (0 <=? -1) with false. cbn [find_path].
  destruct (Z.ltb_spec (pos_of vars x) 0); [lia|]. rewrite (gep_endo m _ e L Ee). cbn [rbind].
  assert (Nm : name_at vars (pos_of vars a) = Ok a).
  { unfold name_at. destruct (Z.ltb_spec (pos_of vars a) 0); [lia|]. now rewrite (pos_of_nonneg vars a Pa). }
  rewrite Nm. cbn [rbind]. destruct (g_objs _ _ _ G e a ns Hns) as (o & Ho & _).
  assert (Eo : objs_of (map fst eqs) m a = Ok o).
  { unfold objs_of. rewrite (pos_of_nth (map fst eqs) e a NE) by (rewrite nth_error_map, Hns; reflexivity).
    destruct (Z.ltb_spec (Z.of_nat e) 0); [lia|]. rewrite (t_objs _ _ T). now apply getz_some. }
  rewrite Eo. cbn [rbind]. assert (C : contains o (pos_of vars x) = true) by (now apply (contains_iff m0 _ e o Ho)).
  rewrite C. rewrite (assign_ok m e (pos_of vars x) Hl Ox). cbn [rbind fst snd]. eexists. split; [reflexivity|].
  set (m2 := mkM _ _ _).
  assert (XK : forall k w, endo_of m2 k w <-> (k = e /\ w = pos_of vars x) \/ (k <> e /\ endo_of m k w)).
  { apply put_endo; [reflexivity|exact Hl]. }
  constructor.
  - constructor.
    + unfold m2; cbn [objs posxk]. rewrite put_at_length. exact (l_len m L).
    + intros k w Hw. unfold m2; cbn [posrev]. apply XK in Hw as [[-> ->]|[Hk H']].
      * split; [lia|]. apply put_at_same. unfold len in Ox. lia.
      * destruct (l_endo m L k w H') as [A B]. split; [exact A|]. rewrite put_at_nth.
        destruct (Nat.eqb_spec (Z.to_nat (pos_of vars x)) (Z.to_nat w)) as [Q|Q]; [|exact B].
        exfalso. apply (NotE k). replace (pos_of vars x) with w by lia. exact H'.
    + intros y p Hy. unfold m2 in *; cbn [posrev objs] in *. rewrite put_at_nth in Hy. destruct (Nat.eqb_spec (Z.to_nat (pos_of vars x)) y).
      * destruct (Nat.ltb (Z.to_nat (pos_of vars x)) (length (posrev m))); [|discriminate]. inversion Hy. rewrite (l_len m L) in Hl. unfold len. lia.
      * now apply (l_rev m L) in Hy.
    + intros i y Hy. unfold len, m2; cbn [posrev]. rewrite put_at_length. apply (l_occ m L i y). exact Hy.
  - exact (t_objs _ _ T).
  - unfold m2; cbn [posrev]. rewrite put_at_length. exact (t_lenr _ _ T).
  - intros k w. rewrite XK. split.
    + intros [[-> ->]|[Hk H']].
      * exists a, ns. split; [exact Hns|]. unfold now_endo. cbn [assoc]. now rewrite (proj2 (str_eqb_iff a a) eq_refl).
      * apply (t_endo _ _ T) in H' as (n & ns' & Hn & ->). exists n, ns'. split; [exact Hn|]. unfold now_endo. cbn [assoc].
        destruct (str_eqb n a) eqn:E; [|reflexivity]. apply str_eqb_iff in E. subst n. exfalso. apply Hk.
        eapply (named_unique eqs NE); eexists; eauto.
    + intros (n & ns' & Hn & ->). destruct (Nat.eq_dec k e) as [->|Nk].
      * left. split; [reflexivity|]. assert (n = a) by congruence. subst n. unfold now_endo. cbn [assoc]. now rewrite (proj2 (str_eqb_iff a a) eq_refl).
      * right. split; [exact Nk|]. apply (t_endo _ _ T). exists n, ns'. split; [exact Hn|]. unfold now_endo. cbn [assoc].
        destruct (str_eqb n a) eqn:E; [|reflexivity]. apply str_eqb_iff in E. subst n. exfalso. apply Nk.
        eapply (named_unique eqs NE); eexists; eauto.
  - intros y Iy Ny Hy. unfold m2; cbn [posrev]. cbn in Hy. rewrite put_at_nth.
    destruct (Nat.eqb_spec (Z.to_nat (pos_of vars x)) (Z.to_nat (pos_of vars y))) as [Q|Q].
    + exfalso. apply Hy. left. apply pos_inj; [exact Ix|]. assert (Py := pos_of_in vars y Iy). lia.
    + apply (t_free _ _ T); [exact Iy|exact Ny|]. intros R. apply Hy. now right.
Qed.

Lemma direct_all l : forall D m, state D m -> Forall usable (D ++ l) -> NoDup (map fst (D ++ l)) -> NoDup (map snd (D ++ l)) ->
  exists m', exchanges vars (map fst eqs) m l = Ok (Some m') /\ state (rev l ++ D) m'.
Proof.
  induction l as [|[a x] l IH]; intros D m T F N1 N2; cbn [exchanges].
  - exists m. split; [reflexivity|exact T].
  - assert (F' := F). apply Forall_app in F' as [F1 F2]. inversion F2 as [|? ? Fa Fl]; subst.
    destruct (direct_step D m a x T F1 Fa) as (m1 & E & T1).
    + rewrite map_app in N1. cbn in N1. apply NoDup_remove_2 in N1. intros Q. apply N1. apply in_app_iff. now left.
    + rewrite map_app in N2. cbn in N2. apply NoDup_remove_2 in N2. intros Q. apply N2. apply in_app_iff. now left.
    + rewrite E. cbn [rbind]. destruct (IH ((a, x) :: D) m1 T1) as (m' & E' & T').
      * constructor; [exact Fa|]. apply Forall_app. split; assumption.
      * rewrite map_app in *. cbn in *. apply NoDup_cons.
        { apply NoDup_remove_2 in N1. exact N1. }
        { now apply NoDup_remove_1 in N1. }
      * rewrite map_app in *. cbn in *. apply NoDup_cons.
        { apply NoDup_remove_2 in N2. exact N2. }
        { now apply NoDup_remove_1 in N2. }
      * exists m'. split; [exact E'|]. cbn [rev]. now rewrite <- app_assoc.
Qed.

Lemma state0 : state [] m0.
Proof.
  assert (L := linked_m vars eqs m0 NV NE G). constructor; auto.
  - exact (g_lr _ _ _ G).
  - intros k w. apply (endo_names vars eqs m0 G).
  - intros x Ix Nx _. assert (Px := pos_of_in vars x Ix). assert (Q := pos_of_nonneg vars x Px). apply nth_lt in Q.
    rewrite <- (g_lr _ _ _ G) in Q. destruct (nth_ex _ _ Q) as [p Hp]. rewrite Hp. f_equal.
    destruct (g_rev _ _ _ G _ _ Hp) as [->|(k & -> & Hk)]; [reflexivity|]. exfalso. apply Nx. exists k.
    apply (endo_names vars eqs m0 G) in Hk as (n & ns & Hn & Hp'). exists ns. rewrite Hn. do 2 f_equal. symmetry. apply pos_inj; [exact Ix|lia].
Qed.
End Direct.

Lemma direct_exchanges vars scl eqs m l : NoDup vars -> NoDup (map fst eqs) -> link_model vars scl eqs = Ok (Some m) ->
  NoDup (map fst l) -> NoDup (map snd l) ->
  (forall a x, In (a, x) l -> (exists e, named eqs e a /\ has_var eqs e x) /\ ~ exists k, named eqs k x) ->
  exists m', exchanges vars (map fst eqs) m l = Ok (Some m') /\
    (forall a x k, In (a, x) l -> named eqs k a -> solved_for vars m' k x) /\
    (forall k n, named eqs k n -> ~ In n (map fst l) -> solved_for vars m' k n).
Proof.
  intros NV NE E N1 N2 H. assert (G := link_model_good vars scl eqs m NE E).
  assert (F : Forall (usable eqs) l) by (apply Forall_forall; intros [a x] Hin; exact (H a x Hin)).
  destruct (direct_all vars eqs m NV NE G l [] m (state0 vars eqs m NV NE G) F N1 N2) as (m' & E' & T). exists m'. split; [exact E'|].
  rewrite app_nil_r in T.
  assert (F' : Forall (usable eqs) (rev l)) by (apply Forall_forall; intros p Hp; rewrite Forall_forall in F; apply F; now apply in_rev).
  assert (SF : forall k n, named eqs k n -> solved_for vars m' k (now_endo (rev l) n)).
  { intros k n Hn. assert (I := now_in vars eqs m NV NE G (rev l) n k F' Hn). assert (P := pos_of_in vars _ I).
    exists (Z.to_nat (pos_of vars (now_endo (rev l) n))). split; [|now apply pos_of_nonneg].
    apply (t_endo _ _ _ _ _ T). destruct Hn as [ns Hn]. exists n, ns. split; [exact Hn|lia]. }
  split.
  - intros a x k Hin Hk. assert (Q : now_endo (rev l) a = x); [|rewrite <- Q; now apply SF].
    unfold now_endo. destruct (assoc a (rev l)) as [y|] eqn:A.
    + apply assoc_in, in_rev in A. clear -A Hin N1. induction l as [|[b z] l IH]; [contradiction|]. cbn in N1. inversion N1 as [|? ? N3 N4]; subst.
      destruct A as [A|A], Hin as [B|B].
      * congruence.
      * inversion A; subst. exfalso. apply N3. apply in_map_iff. exists (a, x). auto.
      * inversion B; subst. exfalso. apply N3. apply in_map_iff. exists (a, y). auto.
      * now apply IH.
    + exfalso. clear -A Hin. apply in_rev in Hin. induction (rev l) as [|[b z] r IH]; [contradiction|]. cbn in A.
      destruct (str_eqb a b) eqn:Q; [discriminate|]. destruct Hin as [B|B]; [|now apply IH].
      inversion B; subst. rewrite (proj2 (str_eqb_iff a a) eq_refl) in Q. discriminate.
  - intros k n Hk Hn. assert (Q : now_endo (rev l) n = n); [|assert (R := SF k n Hk); now rewrite Q in R].
    unfold now_endo. rewrite assoc_none; [reflexivity|]. rewrite map_rev. intros R. apply Hn. now apply in_rev.
Qed.
