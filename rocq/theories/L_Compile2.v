(** Converse of [compile_written]: whatever is accepted is the written form of a tree. *)
From Coq Require Import ZArith Ascii String List Bool Lia.
From Verif Require Import M_Base M_Time M_Names M_Lex M_Compile S_Lec L_Compile.
Import ListNotations.
Open Scope Z_scope.
Local Arguments Z.add : simpl never.
Local Arguments Z.sub : simpl never.
Local Arguments Z.of_nat : simpl never.

Ltac lists := repeat first [rewrite <- app_assoc | progress cbn [app]]; reflexivity.

(** What has been read so far, innermost frame first. *)
Inductive frame := FBin (o : opr) (a : ex) | FPre (f : func) | FPar | FApp (f : func) (args : list ex).
Definition fops (x : frame) : ostack :=
  match x with
  | FBin o _ => [(S_OP o, 1)] | FPre f => [(S_F f, 1)] | FPar => [(S_OPENP, 0)]
  | FApp f args => [(S_OPENP, 0); (S_F f, 1 + Z.of_nat (length args))]
  end.
Definition zops (z : list frame) : ostack := flat_map fops z.
Definition ftoks (x : frame) : list token :=
  match x with
  | FBin o a => written a ++ [T_OP o] | FPre f => [func_token f] | FPar => [T_OPENP]
  | FApp f args => func_token f :: T_OPENP :: flat_map (fun a => written a ++ [T_COMMA]) args
  end.
Fixpoint ztoks (z : list frame) : list token :=
  match z with [] => [] | x :: z' => ztoks z' ++ ftoks x end.
Fixpoint zpar (z : list frame) : Z :=
  match z with [] => 0 | (FPar | FApp _ _) :: z' => 1 + zpar z' | _ :: z' => zpar z' end.
Fixpoint valid (z : list frame) : Prop :=
  match z with
  | [] => True
  | FBin o a :: z' => reading a /\ strength o <= level a /\ priority_sup o (zops z') = false /\ valid z'
  | FApp f args :: z' => Forall reading args /\ args <> [] /\ valid z'
  | _ :: z' => valid z'
  end.
Definition fits (n : Z) (z : list frame) : Prop :=
  match z with FBin o _ :: _ => strength o < n | FPre _ :: _ => 8 <= n | _ => True end.
Definition operand (e : ex) : Prop :=
  (reading e /\ level e = 9) \/
  (exists f args sfx, e = EApp f args sfx /\ Forall reading args /\ (2 <= length args)%nat).

Lemma zpar_nonneg z : 0 <= zpar z.
Proof. induction z as [|[]]; simpl; lia. Qed.
Lemma fits_8 n z : 8 <= n -> fits n z.
Proof. destruct z as [|[]]; simpl; auto; destruct o; simpl; lia. Qed.
Lemma fits_of o z : priority_sup o (zops z) = false -> fits (strength o) z.
Proof.
  rewrite strength_prior. destruct z as [|[]]; simpl; auto.
  - intros H. apply Z.leb_gt in H. rewrite strength_prior. lia.
  - discriminate.
Qed.

Lemma save_ok x rex rex' : save_op x rex = Some rex' ->
  match x with (S_F f, nb) => min_args f <= nb <= max_args f | _ => True end.
Proof.
  destruct x as [[|o|f] nb]; simpl; auto.
  destruct (Z.ltb_spec (max_args f) nb), (Z.ltb_spec nb (min_args f)); simpl; try discriminate; lia.
Qed.
Lemma uminus_args f : 1 < max_args f -> f <> FN Fuminus /\ f <> FN Fuplus.
Proof. intros H; split; intros ->; simpl in H; lia. Qed.

(** Popping [pend e] of an operand checks its number of arguments. *)
Lemma operand_reading e f args sfx : e = EApp f args sfx -> Forall reading args -> (2 <= length args)%nat ->
  min_args f <= Z.of_nat (length args) <= max_args f -> reading e.
Proof.
  intros -> F L A. simpl. rewrite reading_all. repeat split; auto; try lia; apply uminus_args; lia.
Qed.
Lemma level_8 e : operand e -> 8 <= level e.
Proof. intros [[_ H]|(f & args & sfx & -> & _)]; simpl; lia. Qed.
Lemma operand_pend e : operand e ->
  (pend e = [] /\ reading e) \/
  (exists f args sfx, e = EApp f args sfx /\ Forall reading args /\ (2 <= length args)%nat).
Proof.
  intros [[R L]|H]; [left|right; assumption].
  destruct e; simpl in L; auto; try lia; destruct o; discriminate.
Qed.

Lemma conv_prio o z : forall e rex rex' ops', valid z -> reading e -> fits (level e) z -> prior o <= level e ->
  pop_prio o rex (zops z) = P_ok rex' ops' ->
  exists z' e', valid z' /\ reading e' /\ ops' = zops z' /\ ztoks z ++ written e = ztoks z' ++ written e' /\
    zpar z' = zpar z /\ prior o <= level e' /\ priority_sup o (zops z') = false.
Proof.
  induction z as [|x z IH]; intros e rex rex' ops' V R F L H.
  - simpl in H. injection H as <- <-. exists [], e. repeat split; auto.
  - destruct (priority_sup o (zops (x :: z))) eqn:E.
    2:{ rewrite pop_prio_stop in H by assumption. injection H as <- <-. exists (x :: z), e. repeat split; auto. }
    destruct x as [o' a|f| |f args]; cbn [zops flat_map fops app priority_sup] in E; try discriminate.
    + cbn [zops flat_map fops app pop_prio priority_sup] in H. rewrite E in H. cbn [save_op] in H.
      apply Z.leb_le in E. simpl in V, F. destruct V as (Ra & La & P & V).
      assert (R' : reading (EBin o' a e)) by (simpl; repeat split; auto).
      assert (F' : fits (level (EBin o' a e)) z) by (apply fits_of; assumption).
      assert (L' : prior o <= level (EBin o' a e)) by (pose proof (strength_prior o'); cbn [level]; lia).
      apply (IH _ _ _ _ V R' F' L') in H.
      destruct H as (z' & e' & H1 & H2 & H3 & H4 & H5 & H6). exists z', e'. cbn [zpar].
      do 3 (split; [assumption|]). split; [|tauto].
      rewrite <- H4. simpl. lists.
    + cbn [zops flat_map fops app pop_prio priority_sup] in H.
      destruct (save_op (S_F f, 1) rex) as [r1|] eqn:S; [|discriminate].
      apply save_ok in S. simpl in V, F.
      assert (R' : reading (EPre f e)) by (simpl; repeat split; auto; lia).
      assert (F' : fits (level (EPre f e)) z) by (apply fits_8; simpl; lia).
      assert (L' : prior o <= level (EPre f e)) by (simpl; destruct o; simpl; lia).
      apply (IH _ _ _ _ V R' F' L') in H.
      destruct H as (z' & e' & H1 & H2 & H3 & H4 & H5 & H6). exists z', e'. cbn [zpar].
      do 3 (split; [assumption|]). split; [|tauto].
      rewrite <- H4. simpl. lists.
Qed.
Lemma conv_prio_operand o z e rex rex' ops' : valid z -> operand e ->
  pop_prio o rex (pend e ++ zops z) = P_ok rex' ops' ->
  exists z' e', valid z' /\ reading e' /\ ops' = zops z' /\ ztoks z ++ written e = ztoks z' ++ written e' /\
    zpar z' = zpar z /\ prior o <= level e' /\ priority_sup o (zops z') = false.
Proof.
  intros V O H. pose proof (level_8 e O) as L8.
  assert (PO : prior o <= level e) by (destruct o; simpl; lia).
  destruct (operand_pend e O) as [[P R]|(f & args & sfx & E & F & N)].
  - rewrite P in H. eapply conv_prio; eauto. apply fits_8; assumption.
  - rewrite E in H. cbn [pend app pop_prio priority_sup] in H.
    destruct (save_op (S_F f, Z.of_nat (length args)) rex) as [r1|] eqn:S; [|discriminate].
    apply save_ok in S. eapply conv_prio; eauto.
    + eapply operand_reading; eauto.
    + apply fits_8; assumption.
Qed.

Lemma conv_close z : forall e rex rex' ops', valid z -> reading e -> fits (level e) z ->
  pop_close rex (zops z) = P_ok rex' ops' ->
  exists z' e', valid z' /\ reading e' /\ zpar z = 1 + zpar z' /\
    ((ops' = zops z' /\ ztoks z ++ written e = ztoks z' ++ T_OPENP :: written e') \/
     (exists f args, ops' = (S_F f, 1 + Z.of_nat (length args)) :: zops z' /\ Forall reading args /\ args <> [] /\
        ztoks z ++ written e =
        ztoks z' ++ func_token f :: T_OPENP :: flat_map (fun a => written a ++ [T_COMMA]) args ++ written e')).
Proof.
  induction z as [|x z IH]; intros e rex rex' ops' V R F H; [discriminate|].
  destruct x as [o' a|f| |f args]; cbn [zops flat_map fops app pop_close save_op] in H.
  - simpl in V, F. destruct V as (Ra & La & P & V).
    assert (R' : reading (EBin o' a e)) by (simpl; repeat split; auto).
    assert (F' : fits (level (EBin o' a e)) z) by (apply fits_of; assumption).
    eapply IH in H; [|exact V|exact R'|exact F'].
    destruct H as (z' & e' & H1 & H2 & H3 & H4). exists z', e'. split; [auto|]. split; [auto|]. split; [auto|].
      replace (ztoks (FBin o' a :: z) ++ written e) with (ztoks z ++ written (EBin o' a e)); auto.
      simpl. lists.
  - destruct (save_op (S_F f, 1) rex) as [r1|] eqn:S; cbn [save_op] in S; rewrite S in H; [|discriminate].
    assert (S' : save_op (S_F f, 1) rex = Some r1) by exact S. apply save_ok in S'. simpl in V, F.
    assert (R' : reading (EPre f e)) by (simpl; repeat split; auto; lia).
    assert (F' : fits (level (EPre f e)) z) by (apply fits_8; simpl; lia).
    eapply IH in H; [|exact V|exact R'|exact F'].
    destruct H as (z' & e' & H1 & H2 & H3 & H4). exists z', e'. split; [auto|]. split; [auto|]. split; [auto|].
      replace (ztoks (FPre f :: z) ++ written e) with (ztoks z ++ written (EPre f e)); auto.
      simpl. lists.
  - injection H as <- <-. exists z, e. repeat split; auto. left. split; auto. simpl. lists.
  - injection H as <- <-. simpl in V. destruct V as (Fa & N & V). exists z, e. repeat split; auto.
    right. exists f, args. repeat split; auto. simpl. lists.
Qed.
Lemma conv_close_operand z e rex rex' ops' : valid z -> operand e ->
  pop_close rex (pend e ++ zops z) = P_ok rex' ops' ->
  exists z' e', valid z' /\ reading e' /\ zpar z = 1 + zpar z' /\
    ((ops' = zops z' /\ ztoks z ++ written e = ztoks z' ++ T_OPENP :: written e') \/
     (exists f args, ops' = (S_F f, 1 + Z.of_nat (length args)) :: zops z' /\ Forall reading args /\ args <> [] /\
        ztoks z ++ written e =
        ztoks z' ++ func_token f :: T_OPENP :: flat_map (fun a => written a ++ [T_COMMA]) args ++ written e')).
Proof.
  intros V O H. pose proof (level_8 e O) as L8.
  destruct (operand_pend e O) as [[P R]|(f & args & sfx & E & F & N)].
  - rewrite P in H. eapply conv_close; eauto. apply fits_8; assumption.
  - rewrite E in H. cbn [pend app pop_close] in H.
    destruct (save_op (S_F f, Z.of_nat (length args)) rex) as [r1|] eqn:S; [|discriminate].
    apply save_ok in S. eapply conv_close; eauto.
    + eapply operand_reading; eauto.
    + apply fits_8; assumption.
Qed.

Lemma conv_all z : forall e rex rex' ops', valid z -> reading e -> fits (level e) z -> zpar z = 0 ->
  pop_all rex (zops z) = P_ok rex' ops' -> exists e', reading e' /\ ztoks z ++ written e = written e'.
Proof.
  induction z as [|x z IH]; intros e rex rex' ops' V R F Z0 H; [exists e; auto|].
  pose proof (zpar_nonneg z).
  destruct x as [o' a|f| |f args]; cbn [zops flat_map fops app pop_all save_op] in H; simpl in Z0; try lia.
  - simpl in V, F. destruct V as (Ra & La & P & V).
    assert (R' : reading (EBin o' a e)) by (simpl; repeat split; auto).
    assert (F' : fits (level (EBin o' a e)) z) by (apply fits_of; assumption).
    eapply IH in H; [|exact V|exact R'|exact F'|..]; [|simpl in Z0 |- *; assumption ..].
    destruct H as (e' & H1 & H2). exists e'. split; auto. rewrite <- H2. simpl. lists.
  - destruct (save_op (S_F f, 1) rex) as [r1|] eqn:S; cbn [save_op] in S; rewrite S in H; [|discriminate].
    assert (S' : save_op (S_F f, 1) rex = Some r1) by exact S. apply save_ok in S'. simpl in V, F.
    assert (R' : reading (EPre f e)) by (simpl; repeat split; auto; lia).
    assert (F' : fits (level (EPre f e)) z) by (apply fits_8; simpl; lia).
    eapply IH in H; [|exact V|exact R'|exact F'|..]; [|simpl in Z0 |- *; assumption ..].
    destruct H as (e' & H1 & H2). exists e'. split; auto. rewrite <- H2. simpl. lists.
Qed.
Lemma conv_all_operand z e rex rex' ops' : valid z -> operand e -> zpar z = 0 ->
  pop_all rex (pend e ++ zops z) = P_ok rex' ops' -> exists e', reading e' /\ ztoks z ++ written e = written e'.
Proof.
  intros V O Z0 H. pose proof (level_8 e O) as L8.
  destruct (operand_pend e O) as [[P R]|(f & args & sfx & E & F & N)].
  - rewrite P in H. eapply conv_all; eauto. apply fits_8; assumption.
  - rewrite E in H. cbn [pend app pop_all] in H.
    destruct (save_op (S_F f, Z.of_nat (length args)) rex) as [r1|] eqn:S; [|discriminate].
    apply save_ok in S. eapply conv_all; eauto.
    + eapply operand_reading; eauto.
    + apply fits_8; assumption.
Qed.

(** After "()" nothing can be accepted: every function needs an argument. *)
Lemma no_zero f nb rex : nb <= 0 -> save_op (S_F (FN f), nb) rex = None.
Proof.
  intros H. cbn [save_op]. destruct (Z.ltb_spec nb (min_args (FN f))).
  - rewrite orb_true_r. reflexivity.
  - destruct f; simpl in *; lia.
Qed.
Lemma ocpar_stuck n : forall toks rex f ops par x o, (length toks <= n)%nat ->
  gen toks rex ((S_F (FN f), 0) :: ops) par false false <> (C_ok x, o).
Proof.
  induction n as [|n IH]; intros toks rex f ops par x o L E.
  - destruct toks; [discriminate|simpl in L; lia].
  - assert (NZ := no_zero f 0).
    destruct toks as [|t toks]; [discriminate|]. simpl in L.
    destruct t; cbn [gen negb] in E; try discriminate.
    + destruct (par =? 0); cbn [negb pop_all] in E; [rewrite NZ in E by lia|]; discriminate.
    + destruct (par =? 0); cbn [negb pop_all] in E; [rewrite NZ in E by lia|]; discriminate.
    + cbn [pop_close] in E. rewrite NZ in E by lia. discriminate.
    + repeat match type of E with
      | match ?x with _ => _ end = _ => destruct x eqn:?; try discriminate
      end; simpl in L; eapply IH in E; auto; lia.
    + cbn [pop_close] in E. rewrite NZ in E by lia. discriminate.
    + cbn [pop_prio priority_sup] in E. rewrite NZ in E by lia. discriminate.
Qed.

Definition endtok (t : token) : Prop := t = T_EOF \/ t = T_EOE.
Lemma sep_flat l x : sep T_COMMA (map written (l ++ [x])) = flat_map (fun a => written a ++ [T_COMMA]) l ++ written x.
Proof.
  induction l as [|y l IH]; [reflexivity|]. simpl app. cbn [map flat_map].
  destruct (map written (l ++ [x])) eqn:E; [destruct l; discriminate|].
  change (sep T_COMMA (written y :: l0 :: l1)) with (written y ++ T_COMMA :: sep T_COMMA (l0 :: l1)).
  rewrite IH. lists.
Qed.
Lemma written_sfx e s : operand e -> exists e', operand e' /\ written e' = written e ++ sfx_tokens s /\ pend e' = pend e.
Proof.
  intros [[R L]|(f & args & sfx & -> & F & N)].
  - exists (ESfx e s). split; [left; simpl; auto|]. split; [reflexivity|].
    destruct e; simpl in L |- *; auto; try lia; destruct o; discriminate.
  - exists (EApp f args (sfx ++ [s])). split; [right; exists f, args, (sfx ++ [s]); auto|]. split; [|reflexivity].
    simpl. rewrite flat_map_app. simpl. rewrite app_nil_r, <- app_assoc. reflexivity.
Qed.

Lemma gen_converse n : forall toks rex par x o, (length toks <= n)%nat ->
  (~ In (T_FN Fuminus) toks /\ ~ In (T_FN Fuplus) toks) ->
  (forall z start, valid z -> par = zpar z -> (start = true -> z = []) ->
     gen toks rex (zops z) par true start = (C_ok x, o) ->
     (start = true /\ exists t more, endtok t /\ toks = t :: more) \/
     exists e t more, reading e /\ endtok t /\ ztoks z ++ toks = written e ++ t :: more) /\
  (forall z e, valid z -> par = zpar z -> operand e ->
     gen toks rex (pend e ++ zops z) par false false = (C_ok x, o) ->
     exists e' t more, reading e' /\ endtok t /\ ztoks z ++ written e ++ toks = written e' ++ t :: more).
Proof.
  induction n as [|n IH]; intros toks rex par x o L NI.
  - destruct toks; [|simpl in L; lia]. split; intros; discriminate.
  - destruct toks as [|t toks]; [split; intros; discriminate|]. simpl in L.
    assert (NI' : ~ In (T_FN Fuminus) toks /\ ~ In (T_FN Fuplus) toks) by (simpl in NI; tauto).
    split.
    + (* an operand is expected *)
      intros z start V P S E.
      assert (LEAF : forall l rex', t = leaf_token l ->
        gen toks rex' (zops z) par false false = (C_ok x, o) ->
        exists e t0 more, reading e /\ endtok t0 /\ ztoks z ++ t :: toks = written e ++ t0 :: more).
      { intros l rex' T E'. destruct (IH toks rex' par x o) as [_ I2]; [lia|auto|].
        destruct (I2 z (ELeaf l)) as (e & t0 & more & H1 & H2 & H3); auto; [left; simpl; auto|].
        exists e, t0, more. repeat split; auto. rewrite <- H3, T. reflexivity. }
      assert (PRE : forall f, t = func_token f ->
        gen toks rex (zops (FPre f :: z)) par true false = (C_ok x, o) ->
        exists e t0 more, reading e /\ endtok t0 /\ ztoks z ++ t :: toks = written e ++ t0 :: more).
      { intros f T E'. destruct (IH toks rex par x o) as [I1 _]; [lia|auto|].
        destruct (I1 (FPre f :: z) false) as [[C _]|(e & t0 & more & H1 & H2 & H3)]; auto; try discriminate.
        exists e, t0, more. repeat split; auto. rewrite <- H3, T. simpl. lists. }
      destruct t; cbn [gen negb value_atom fn_token] in E; try discriminate.
      * destruct start; [left; split; auto; exists T_EOF, toks; split; auto; left; auto|discriminate].
      * destruct start; [left; split; auto; exists T_EOE, toks; split; auto; right; auto|discriminate].
      * right. destruct (IH toks (A_OPENP :: rex) (par + 1) x o) as [I1 _]; [lia|auto|].
        destruct (I1 (FPar :: z) false) as [[C _]|(e & t0 & more & H1 & H2 & H3)]; auto; try discriminate.
        { simpl. lia. }
        exists e, t0, more. repeat split; auto. rewrite <- H3. simpl. lists.
      * destruct (zops z) as [|[[|o1|[f|f|f]] nb] ops']; try discriminate.
        apply (ocpar_stuck (length toks)) in E; [tauto|lia].
      * right. destruct o0; try discriminate; [apply (PRE (FN Fuplus))|apply (PRE (FN Fuminus))]; auto.
      * right. apply (PRE (FN f)); auto. destruct f; try reflexivity; exfalso; simpl in NI; tauto.
      * right. apply (PRE (TFN f)); auto.
      * right. apply (PRE (MTFN f)); auto.
      * right. apply (LEAF (LVal v) _ eq_refl E).
      * right. apply (LEAF (LVar name) _ eq_refl E).
      * right. apply (LEAF (LCoef name) _ eq_refl E).
      * right. apply (LEAF (LLong n0) _ eq_refl E).
      * right. apply (LEAF (LReal text) _ eq_refl E).
      * right. apply (LEAF (LPeriod p) _ eq_refl E).
    + (* an operand has just been read *)
      intros z e V P O E.
      assert (STOP : forall t0, t = t0 -> endtok t0 ->
        match pop_all rex (pend e ++ zops z) with
        | P_ok rex' ops' => if negb (par =? 0) then (C_err, pend e ++ zops z) else (C_ok (rev (A_EOE :: rex')), ops')
        | P_err ops' => (C_err, ops') end = (C_ok x, o) ->
        exists e' t more, reading e' /\ endtok t /\ ztoks z ++ written e ++ t0 :: toks = written e' ++ t :: more).
      { intros t0 T ET E'. destruct (pop_all rex (pend e ++ zops z)) eqn:PA; [|discriminate].
        destruct (Z.eqb_spec par 0); [|discriminate].
        apply conv_all_operand in PA; auto; [|lia]. destruct PA as (e' & H1 & H2).
        exists e', t0, toks. repeat split; auto. rewrite app_assoc, H2. reflexivity. }
      assert (SFX : forall s toks' rex', t :: toks = sfx_tokens s ++ toks' ->
        gen toks' rex' (pend e ++ zops z) par false false = (C_ok x, o) ->
        exists e' t0 more, reading e' /\ endtok t0 /\ ztoks z ++ written e ++ t :: toks = written e' ++ t0 :: more).
      { intros s toks' rex' T E'. destruct (written_sfx e s O) as (e1 & O1 & W & PE). rewrite <- PE in E'.
        destruct (IH toks' rex' par x o) as [_ I2].
        - apply (f_equal (@length _)) in T. rewrite app_length in T. simpl in T. destruct s; simpl in T; lia.
        - split; intros I; [destruct NI as [NI _]|destruct NI as [_ NI]]; apply NI; rewrite T; apply in_or_app; auto.
        - destruct (I2 z e1 V P O1 E') as (e' & t0 & more & H1 & H2 & H3). exists e', t0, more.
          repeat split; auto. rewrite T. rewrite <- H3, W, <- app_assoc. reflexivity. }
      destruct t; cbn [gen negb] in E; try discriminate.
      * apply STOP with (t0 := T_EOF); [auto|left; auto|].
        destruct (pop_all rex (pend e ++ zops z)); destruct (negb (par =? 0)); auto; discriminate.
      * apply STOP with (t0 := T_EOE); [auto|right; auto|].
        destruct (pop_all rex (pend e ++ zops z)); destruct (negb (par =? 0)); auto; discriminate.
      * (* closing parenthesis *)
        destruct (pop_close rex (pend e ++ zops z)) as [rex' ops'|] eqn:PC; [|discriminate].
        apply conv_close_operand in PC; auto.
        destruct PC as (z' & e' & V' & R' & Zp & [[-> W]|(f & args & -> & Fa & N & W)]).
        -- destruct (IH toks rex' (par - 1) x o) as [_ I2]; [lia|auto|].
           destruct (I2 z' (EPar e')) as (e2 & t0 & more & H1 & H2 & H3); auto; [lia|left; simpl; auto|].
           exists e2, t0, more. repeat split; auto. rewrite app_assoc, W, <- H3. simpl. lists.
        -- destruct (IH toks rex' (par - 1) x o) as [_ I2]; [lia|auto|].
           destruct (I2 z' (EApp f (args ++ [e']) [])) as (e2 & t0 & more & H1 & H2 & H3); auto; [lia| | |].
           { right. exists f, (args ++ [e']), []. repeat split; auto.
             - apply Forall_app; auto.
             - rewrite app_length. destruct args; simpl; [tauto|lia]. }
           { simpl. rewrite app_length. simpl. replace (Z.of_nat (length args + 1)) with (1 + Z.of_nat (length args)) by lia.
             assumption. }
           exists e2, t0, more. repeat split; auto. rewrite app_assoc, W, <- H3. cbn [written app flat_map].
           rewrite sep_flat. lists.
      * (* bracket *)
        destruct toks as [|[] toks]; try discriminate.
        -- destruct toks as [|[] [|[] toks]]; try discriminate.
           destruct o0; try discriminate;
           (match type of E with match ?q with _ => _ end = _ => destruct q as [rex'|] eqn:OL; [|discriminate] end).
           ++ apply (SFX (SLag false n0) toks rex'); auto.
           ++ apply (SFX (SLag true n0) toks rex'); auto.
        -- destruct toks as [|[] toks]; try discriminate.
           destruct (on_last_sub (time_atom p) rex) as [rex'|] eqn:OL; [|discriminate].
           apply (SFX (SAt p) toks rex'); auto.
      * (* comma *)
        destruct (pop_close rex (pend e ++ zops z)) as [rex' ops'|] eqn:PC; [|discriminate].
        apply conv_close_operand in PC; auto.
        destruct PC as (z' & e' & V' & R' & Zp & [[-> W]|(f & args & -> & Fa & N & W)]).
        -- destruct z' as [|[o1 a1|f1| |f1 a1] z'']; cbn [zops flat_map fops app] in E; try discriminate.
           destruct (IH toks (A_OPENP :: rex') par x o) as [I1 _]; [lia|auto|].
           destruct (I1 (FApp f1 [e'] :: z'') false) as [[C _]|(e2 & t0 & more & H1 & H2 & H3)]; auto; try discriminate.
           { simpl in V' |- *. repeat split; auto. discriminate. }
           { simpl in Zp |- *. lia. }
           exists e2, t0, more. repeat split; auto. rewrite app_assoc, W, <- H3. simpl. lists.
        -- destruct (IH toks (A_OPENP :: rex') par x o) as [I1 _]; [lia|auto|].
           destruct (I1 (FApp f (args ++ [e']) :: z') false) as [[C _]|(e2 & t0 & more & H1 & H2 & H3)]; auto; try discriminate.
           { simpl. repeat split; auto. apply Forall_app; auto. destruct args; discriminate. }
           { simpl in Zp |- *. lia. }
           { cbn [zops flat_map fops app]. rewrite app_length. simpl.
             replace (1 + Z.of_nat (length args + 1)) with (1 + Z.of_nat (length args) + 1) by lia. assumption. }
           exists e2, t0, more. repeat split; auto. rewrite app_assoc, W, <- H3. cbn [ztoks ftoks].
           rewrite flat_map_app. simpl. lists.
      * (* operator *)
        destruct (pop_prio o0 rex (pend e ++ zops z)) as [rex' ops'|] eqn:PP; [|discriminate].
        apply conv_prio_operand in PP; auto. destruct PP as (z' & e' & V' & R' & -> & W & Zp & LV & PS).
        destruct (IH toks rex' par x o) as [I1 _]; [lia|auto|].
        destruct (I1 (FBin o0 e' :: z') false) as [[C _]|(e2 & t0 & more & H1 & H2 & H3)]; auto; try discriminate.
        { simpl. rewrite strength_prior. auto. }
        { simpl. lia. }
        exists e2, t0, more. repeat split; auto. rewrite app_assoc, W, <- H3. simpl. lists.
Qed.

Theorem compile_sound toks x o : ~ In (T_FN Fuminus) toks -> ~ In (T_FN Fuplus) toks ->
  compile_tokens toks [] = (C_ok x, o) ->
  (exists t more, endtok t /\ toks = t :: more) \/
  exists e t more, reading e /\ endtok t /\ toks = written e ++ t :: more.
Proof.
  intros N1 N2 H. destruct (gen_converse (length toks) toks [] 0 x o) as [I _]; auto.
  destruct (I [] true) as [[_ H']|H']; auto. exact Logic.I.
Qed.
