(** Lemmas for property C102. *)
From Coq Require Import ZArith Ascii String List Bool Lia ZifyBool Floats.SpecFloat.
From Verif Require Import M_Base M_Report M_Time M_Names M_Lex M_Compile M_Bytes M_Exec M_Double M_Decimal M_Kdb M_Ascii M_AsciiEqs M_EstSave
  S_Report S_EstSave L_Names L_Kdb L_Decimal L_Report5 L_Lists.
Import ListNotations.
Open Scope Z_scope.

(** * Words *)
Lemma tokens_ext p q s : (forall c, p c = q c) -> forall w, tokens p s w = tokens q s w.
Proof. intros E. induction s as [|c s IH]; intros w; [reflexivity|]. cbn [tokens]. rewrite E, !IH. reflexivity. Qed.
Lemma block_words t : vtoms (S2L " ,;") t = elements t.
Proof.
  rewrite vtoms_tokens. unfold elements. apply tokens_ext. intros c. destruct c as [b0 b1 b2 b3 b4 b5 b6 b7]. destruct b0, b1, b2, b3, b4, b5, b6, b7; reflexivity.
Qed.
Lemma instr_words t : vtoms (S2L ",;") t = tokens (fun c => among c [44; 59]) t [].
Proof. rewrite vtoms_tokens. apply tokens_ext. intros c. destruct c as [b0 b1 b2 b3 b4 b5 b6 b7]. destruct b0, b1, b2, b3, b4, b5, b6, b7; reflexivity. Qed.
Lemma tokens_in p s : forall w x, (forall c, In c w -> p c = false) -> In x (tokens p s w) -> forall c, In c x -> p c = false.
Proof.
  induction s as [|a s IH]; intros w x W I c C; cbn [tokens] in I.
  - destruct (nonempty w); [|contradiction]. destruct I as [<-|[]]. apply W, C.
  - destruct (p a) eqn:E.
    + destruct (nonempty w); [destruct I as [<-|I]; [apply W, C|]|]; apply (IH [] x (fun c (H : In c []) => match H with end) I c C).
    + apply (IH (w ++ [a]) x); [|exact I|exact C]. intros d D. apply in_app_iff in D as [D|[<-|[]]]; [apply W, D|exact E].
Qed.
Lemma sqz_element t b : In b (elements t) -> sqz b = b.
Proof.
  intros I. unfold sqz. assert (H : forall c, In c b -> negb (is 32 c) = true).
  { intros c C. pose proof (tokens_in _ t [] b (fun c (H : In c []) => match H with end) I c C) as A. cbn beta in A. destruct (is 32 c) eqn:E; [|reflexivity]. exfalso.
    destruct c as [b0 b1 b2 b3 b4 b5 b6 b7]. destruct b0, b1, b2, b3, b4, b5, b6, b7; try discriminate E. discriminate A. }
  clear I. induction b as [|c b IH]; [reflexivity|]. cbn [filter]. rewrite (H c (or_introl eq_refl)). f_equal. apply IH. intros d D. apply H. right. exact D.
Qed.
(** * Texts *)
Lemma same_refl a : same_texts a a.
Proof. intros k. destruct (find k a); [repeat split|exact I]. Qed.
Lemma same_trans a b c : same_texts a b -> same_texts b c -> same_texts a c.
Proof.
  intros H1 H2 k. specialize (H1 k). specialize (H2 k). destruct (find k a), (find k b), (find k c); try contradiction; try exact I.
  destruct H1 as (A & B & C & D), H2 as (E & F & G & H). unfold same_text. rewrite E, F, G, H. repeat split; assumption.
Qed.
Lemma same_find a b k q : same_texts a b -> find k a = Some q -> exists q', find k b = Some q' /\ same_text q q'.
Proof. intros H E. specialize (H k). rewrite E in H. destruct (find k b); [|contradiction]. eexists. split; [reflexivity|exact H]. Qed.
Lemma same_back a b k q : same_texts a b -> find k b = Some q -> exists q', find k a = Some q' /\ same_text q' q.
Proof. intros H E. specialize (H k). rewrite E in H. destruct (find k a); [|contradiction]. eexists. split; [reflexivity|exact H]. Qed.
Lemma same_put a n q q' : find (ukey n) a = Some q -> same_text q q' -> same_texts a (put (ukey n) q' a).
Proof.
  intros F T k. rewrite find_put. destruct (str_eqb k (ukey n)) eqn:E.
  - apply str_eqb_iff in E. subst k. rewrite F. exact T.
  - destruct (find k a); [repeat split|exact I].
Qed.
Lemma members_same a b n q q' : same_texts a b -> same_text q q' -> members b n q' = members a n q.
Proof.
  intros H (L & _ & B & _). unfold members. rewrite L, B. destruct (elements (block q)) as [|x l]; [reflexivity|]. apply map_ext. intros y. f_equal. specialize (H (upper y)).
  destruct (find (upper y) a), (find (upper y) b); try contradiction; [exact (proj1 H)|reflexivity].
Qed.
Lemma instr_same q q' : same_text q q' -> instruments q' = instruments q.
Proof. intros (_ & _ & _ & E). unfold instruments. rewrite E. reflexivity. Qed.

(** * Scalars *)
Section Puts.
Context {V : Type}.
Variable g : str -> str.
Variable h : dbl -> V.
Hypothesis Hg : forall a b, g a = g b -> a = b.
Definition puts (tab : list (str * dbl)) (db : smap V) : smap V := fold_left (fun db e => put (g (fst e)) (h (snd e)) db) tab db.
Lemma puts_out tab : forall db k, ~ In k (map (fun e => g (fst e)) tab) -> find k (puts tab db) = find k db.
Proof.
  induction tab as [|e tab IH]; intros db k N; [reflexivity|]. cbn [puts fold_left]. change (find k (puts tab (put (g (fst e)) (h (snd e)) db)) = find k db). rewrite IH.
  - apply find_put_neq. intros ->. apply N. left. reflexivity.
  - intros I. apply N. right. exact I.
Qed.
Lemma puts_in tab : NoDup (map fst tab) -> forall db a x, In (a, x) tab -> find (g a) (puts tab db) = Some (h x).
Proof.
  induction tab as [|e tab IH]; intros D db a x I; [contradiction|]. cbn [map] in D. inversion D as [|? ? N D']; subst. cbn [puts fold_left].
  change (find (g a) (puts tab (put (g (fst e)) (h (snd e)) db)) = Some (h x)). destruct I as [->|I]; [|apply IH; assumption].
  cbn [fst snd] in *. rewrite puts_out; [apply find_put_eq|]. intros H. apply in_map_iff in H as (y & E & Y). apply Hg in E. apply N. rewrite <- E. apply in_map, Y.
Qed.
End Puts.
Lemma scalar_name_inj j i a b : scalar_name j a = scalar_name i b -> j = i /\ a = b.
Proof.
  unfold scalar_name. intros E. injection E as E.
  assert (H : forall u v, forallb isdigit u = true -> forallb isdigit v = true -> u ++ S2L "_" ++ a = v ++ S2L "_" ++ b -> u = v /\ a = b).
  { clear. induction u as [|c u IH]; intros v U V E.
    - destruct v as [|d v]; [injection E as <-; split; reflexivity|]. injection E as <- _. discriminate V.
    - destruct v as [|d v]; [injection E as -> _; discriminate U|]. injection E as <- E. cbn [forallb] in U, V. apply andb_true_iff in U as [_ U], V as [_ V].
      destruct (IH v U V E) as [-> ->]. split; reflexivity. }
  destruct (H _ _ (to_string_digits (Z.of_nat j) ltac:(lia)) (to_string_digits (Z.of_nat i) ltac:(lia)) E) as [T ->]. split; [|reflexivity].
  apply to_string_inj in T; lia.
Qed.
Lemma tests2scl_is t j n k w : E_tests2scl t j n k w =
  mkW (eqs w) (scope w) (puts (scalar_name j) (fun x => mkScl x (d_ofZ 1) d_na) (scalar_values t n k) (scls w)) (vars w).
Proof. reflexivity. Qed.
Lemma scalar_values_nodup t n k : NoDup (map fst (scalar_values t n k)).
Proof. cbn [map fst scalar_values]. repeat (constructor; [cbn [In]; intuition discriminate|]). constructor. Qed.
(** * Saving *)
Lemma holds_row row from nb : 0 <= from -> from + Z.of_nat (length row) <= nb ->
  holds (repeat d_na (Z.to_nat from) ++ row ++ repeat d_na (Z.to_nat (nb - from - Z.of_nat (length row)))) row from nb.
Proof.
  intros F N. split; [rewrite !app_length, !repeat_length; lia|]. intros t T. destruct (from <=? t) eqn:A; cbn [andb].
  - rewrite app_nth2 by (rewrite repeat_length; lia). rewrite repeat_length. destruct (t <? from + Z.of_nat (length row)) eqn:B.
    + rewrite app_nth1 by lia. f_equal. lia.
    + rewrite app_nth2 by lia. apply nth_repeat.
  - rewrite app_nth1 by (rewrite repeat_length; lia). apply nth_repeat.
Qed.
Definition PREFIXES : list str := [S2L "_YCALC"; S2L "_YOBS"; S2L "_YRES"].
Lemma variable_inj p p' i j : In p PREFIXES -> In p' PREFIXES -> variable_at p i = variable_at p' j -> p = p' /\ i = j.
Proof.
  unfold variable_at, PREFIXES. intros P P' E. cbn [In] in P, P'.
  destruct P as [<-|[<-|[<-|[]]]], P' as [<-|[<-|[<-|[]]]]; try discriminate E; apply app_inv_head in E; apply to_string_inj in E; try lia; split; (reflexivity || lia).
Qed.
Lemma savevar_ok name j row from nb t w w' : E_savevar name j row from nb t w = Ok w' ->
  exists v, holds v row from nb /\ w' = mkW (eqs w) (scope w) (scls w) (put (variable_at name j) v (vars w)).
Proof.
  unfold E_savevar. destruct ((from <? 0) || (nb <? from + t) || negb (Z.of_nat (length row) =? t)) eqn:E; [discriminate|]. intros H. injection H as <-.
  eexists. split; [|reflexivity]. replace t with (Z.of_nat (length row)) by lia. apply holds_row; lia.
Qed.

Section Save.
Variables (day : Z) (rest : list dbl).
Lemma update_ok n f met s t w q : scope w = None -> find (ukey n) (eqs w) = Some q ->
  KE_update day n f met s t w = put_eq n (mkEq f (five met) (Some s) (comment q) (block q) (instr q) day t) w.
Proof. intros S F. unfold KE_update, in_scope. rewrite S, F. reflexivity. Qed.

(** [done i]: the results of the equation at the position [i] are in the workspaces. *)
Record kept (l : list (str * str)) (j : nat) (met : Z) (s : sample) (r : results) (from nb : Z) (w w' : world) : Prop := {
  K_scope : scope w' = None;
  K_out : forall k, ~ in_keys k l -> find k (eqs w') = find k (eqs w);
  K_in : forall k q, in_keys k l -> find k (eqs w) = Some q -> exists i n f t, nth_error l i = Some (n, f) /\ upper n = k /\
    nth_error (r_tests r) (j + i) = Some t /\
    find k (eqs w') = Some (mkEq f (five met) (Some s) (comment q) (block q) (instr q) day (map to_float t ++ rest));
  K_scl : forall i t a x, (i < length l)%nat -> nth_error (r_tests r) (j + i) = Some t ->
    In (a, x) (scalar_values (map to_float t ++ rest) (s_nb s) (r_nce r)) -> find (scalar_name (j + i) a) (scls w') = Some (mkScl x (d_ofZ 1) d_na);
  K_scl_out : forall k, (forall i a, (i < length l)%nat -> In a (map fst (scalar_values [] 0 0)) -> k <> scalar_name (j + i) a) ->
    find k (scls w') = find k (scls w);
  K_var : forall i, (i < length l)%nat -> exists c o u v1 v2 v3, nth_error (r_calc r) (j + i) = Some c /\ nth_error (r_obs r) (j + i) = Some o /\
    nth_error (r_res r) (j + i) = Some u /\ holds v1 c from nb /\ holds v2 o from nb /\ holds v3 u from nb /\
    find (variable_at (S2L "_YCALC") (j + i)) (vars w') = Some v1 /\ find (variable_at (S2L "_YOBS") (j + i)) (vars w') = Some v2 /\
    find (variable_at (S2L "_YRES") (j + i)) (vars w') = Some v3;
  K_var_out : forall k, (forall i p, (i < length l)%nat -> In p PREFIXES -> k <> variable_at p (j + i)) -> find k (vars w') = find k (vars w) }.
Lemma save_kept l met s r from nb : forall j w w', scope w = None ->
  (forall k, in_keys k l -> exists q, find k (eqs w) = Some q) ->
  save_all day rest j l met s r from nb w = Ok w' -> kept l j met s r from nb w w' /\ (forall i, (i < length l)%nat -> exists t, nth_error (r_tests r) (j + i) = Some t).
Proof.
  induction l as [|[n f] l IH]; intros j w w' SC EX H; cbn [save_all] in H.
  - injection H as <-. split; [|intros i I; inversion I]. constructor; [exact SC|reflexivity|intros k q []|intros i t a x I; inversion I|reflexivity|intros i I; inversion I|reflexivity].
  - destruct (nth_error (r_tests r) j) as [t|] eqn:Et; [|discriminate]. destruct (nth_error (r_calc r) j) as [c|] eqn:Ec; [|discriminate].
    destruct (nth_error (r_obs r) j) as [o|] eqn:Eo; [|discriminate]. destruct (nth_error (r_res r) j) as [u|] eqn:Eu; [|discriminate].
    destruct (EX (upper n) (or_introl eq_refl)) as [q Q]. change (upper n) with (ukey n) in Q.
    rewrite (update_ok n f met s (map to_float t ++ rest) w q SC Q), tests2scl_is in H. cbv zeta in H.
    destruct (E_savevar (S2L "_YCALC") _ _ _ _ _ _) as [w2| |] eqn:V1; try discriminate. apply savevar_ok in V1 as (v1 & H1 & ->). cbn [rbind eqs scope scls vars put_eq] in H.
    destruct (E_savevar (S2L "_YOBS") _ _ _ _ _ _) as [w3| |] eqn:V2; try discriminate. apply savevar_ok in V2 as (v2 & H2 & ->). cbn [rbind eqs scope scls vars put_eq] in H.
    destruct (E_savevar (S2L "_YRES") _ _ _ _ _ _) as [w4| |] eqn:V3; try discriminate. apply savevar_ok in V3 as (v3 & H3 & ->). cbn [rbind eqs scope scls vars put_eq] in H.
    set (Q' := mkEq f (five met) (Some s) (comment q) (block q) (instr q) day (map to_float t ++ rest)) in *.
    set (W := mkW _ _ _ _) in H. assert (EW : eqs W = put (ukey n) Q' (eqs w)) by reflexivity. assert (SW : scope W = None) by exact SC.
    assert (LW : scls W = puts (scalar_name j) (fun x => mkScl x (d_ofZ 1) d_na) (scalar_values (map to_float t ++ rest) (s_nb s) (r_nce r)) (scls w)) by reflexivity.
    assert (VW : vars W = put (variable_at (S2L "_YRES") j) v3 (put (variable_at (S2L "_YOBS") j) v2 (put (variable_at (S2L "_YCALC") j) v1 (vars w)))) by reflexivity.
    clearbody W. destruct (IH (S j) W w' SW) as [K X]; [|exact H|].
    { intros k I. rewrite EW, find_put. destruct (str_eqb k (ukey n)); [eexists; reflexivity|]. apply EX. right. exact I. }
    clear IH H. assert (IN : forall i, (S j + i = j + S i)%nat) by lia. split.
    2:{ intros [|i] I; [rewrite Nat.add_0_r; eexists; exact Et|]. rewrite <- IN. apply X. cbn in I. lia. }
    assert (P0 : In (S2L "_YCALC") PREFIXES /\ In (S2L "_YOBS") PREFIXES /\ In (S2L "_YRES") PREFIXES) by (cbn; tauto). destruct P0 as (Pc & Po & Pr).
    constructor.
    + apply (K_scope _ _ _ _ _ _ _ _ _ K).
    + intros k N. rewrite (K_out _ _ _ _ _ _ _ _ _ K) by (intros I; apply N; right; exact I). rewrite EW. apply find_put_neq. intros ->. apply N. left. reflexivity.
    + intros k q0 I F. destruct (in_dec (list_eq_dec ascii_dec) k (map (fun x => upper (fst x)) l)) as [J|J].
      * assert (T : exists q1, find k (eqs W) = Some q1 /\ comment q1 = comment q0 /\ block q1 = block q0 /\ instr q1 = instr q0).
        { rewrite EW, find_put. destruct (str_eqb k (ukey n)) eqn:E; [|exists q0; repeat split; exact F]. apply str_eqb_iff in E. subst k. rewrite Q in F. injection F as <-. exists Q'. repeat split. }
        destruct T as (q1 & F1 & C1 & B1 & I1). destruct (K_in _ _ _ _ _ _ _ _ _ K k q1 J F1) as (i & n' & f' & t' & A1 & A2 & A3 & A4).
        exists (S i), n', f', t'. rewrite <- IN, <- C1, <- B1, <- I1. repeat split; assumption.
      * destruct I as [I|I]; [|contradiction]. cbn [fst] in I. subst k. change (upper n) with (ukey n) in *. rewrite Q in F. injection F as <-. exists 0%nat, n, f, t. rewrite Nat.add_0_r. split; [reflexivity|].
        split; [reflexivity|]. split; [exact Et|]. rewrite (K_out _ _ _ _ _ _ _ _ _ K) by exact J. rewrite EW. apply find_put_eq.
    + intros [|i] t' a x I T A.
      * rewrite Nat.add_0_r in *. rewrite Et in T. injection T as <-. rewrite (K_scl_out _ _ _ _ _ _ _ _ _ K).
        -- rewrite LW. exact (puts_in (scalar_name j) (fun x => mkScl x (d_ofZ 1) d_na) (fun b d E => proj2 (scalar_name_inj j j b d E)) _ (scalar_values_nodup _ _ _) (scls w) a x A).
        -- intros i b Hi _ E. apply scalar_name_inj in E as [E _]. lia.
      * rewrite <- IN in *. apply (K_scl _ _ _ _ _ _ _ _ _ K i t'); [cbn in I; lia|exact T|exact A].
    + intros k N. rewrite (K_scl_out _ _ _ _ _ _ _ _ _ K).
      * rewrite LW. apply puts_out. intros I. apply in_map_iff in I as (y & <- & Y). apply (N 0%nat (fst y)); [cbn; lia| |rewrite Nat.add_0_r; reflexivity].
        assert (Z0 : map fst (scalar_values (map to_float t ++ rest) (s_nb s) (r_nce r)) = map fst (scalar_values [] 0 0)) by reflexivity. rewrite <- Z0. apply in_map, Y.
      * intros i a Hi Ha. rewrite IN. apply N; [cbn; lia|exact Ha].
    + intros [|i] I.
      * rewrite Nat.add_0_r. exists c, o, u, v1, v2, v3. do 6 (split; [assumption|]).
        rewrite !(K_var_out _ _ _ _ _ _ _ _ _ K).
        -- rewrite VW. rewrite !find_put. rewrite !str_eqb_refl.
           assert (D : forall p p', In p PREFIXES -> In p' PREFIXES -> p <> p' -> str_eqb (variable_at p j) (variable_at p' j) = false).
           { intros p p' Hp Hp' N. apply str_eqb_neq. intros E. apply variable_inj in E as [E _]; [contradiction|assumption|assumption]. }
           rewrite (D (S2L "_YCALC") (S2L "_YRES")), (D (S2L "_YCALC") (S2L "_YOBS")), (D (S2L "_YOBS") (S2L "_YRES")) by (assumption || discriminate). repeat split.
        -- intros i p Hi Hp E. apply variable_inj in E as [_ E]; [lia|assumption|assumption].
        -- intros i p Hi Hp E. apply variable_inj in E as [_ E]; [lia|assumption|assumption].
        -- intros i p Hi Hp E. apply variable_inj in E as [_ E]; [lia|assumption|assumption].
      * rewrite <- IN. apply (K_var _ _ _ _ _ _ _ _ _ K). cbn in I. lia.
    + intros k N. rewrite (K_var_out _ _ _ _ _ _ _ _ _ K).
      * rewrite VW. assert (M : forall p, In p PREFIXES -> k <> variable_at p j) by (intros p Hp; specialize (N 0%nat p); rewrite Nat.add_0_r in N; apply N; [cbn; lia|exact Hp]).
        rewrite !find_put_neq by (apply M; assumption). reflexivity.
      * intros i p Hi Hp. rewrite IN. apply N; [cbn; lia|exact Hp].
Qed.
End Save.
