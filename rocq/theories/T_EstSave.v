(** Property C102: what an estimation leaves in the workspaces. *)
From Coq Require Import ZArith Ascii String List Bool Lia ZifyBool Floats.SpecFloat.
From Verif Require Import M_Base M_Report M_Time M_Names M_Lex M_Compile M_Bytes M_Exec M_Double M_Decimal M_Kdb M_Ascii M_AsciiEqs M_EstSave
  S_Report S_EstSave L_Names L_Kdb L_Decimal L_Report5 L_Lists L_EstSave.
Import ListNotations.
Open Scope Z_scope.

Section Loop.
Variable est : Z -> sample -> list (str * str) -> list str -> smap scalar -> smap (list dbl) -> smap scalar * option results.
Variables (vs : option sample) (day : Z) (rest : list dbl) (s : sample) (met : Z).
Lemma block_ok w t l r : (forall b, In b l -> In b (elements t)) -> block_of w l = Ok r ->
  r = map (fun b => (b, match find (upper b) (eqs w) with Some q => lec q | None => [] end)) l /\ (forall b, In b l -> exists q, find (upper b) (eqs w) = Some q).
Proof.
  revert r. induction l as [|b l IH]; intros r E H; cbn [block_of] in H; [injection H as <-; split; [reflexivity|intros b []]|].
  rewrite (sqz_element t b (E b (or_introl eq_refl))) in H. destruct (find (ukey b) (eqs w)) as [q|] eqn:F; [|discriminate].
  destruct (block_of w l) as [x| |] eqn:B; try discriminate. injection H as <-. destruct (IH x (fun c C => E c (or_intror C)) eq_refl) as [-> X]. split.
  - cbn [map]. change (upper b) with (ukey b). rewrite F. reflexivity.
  - intros c [<-|C]; [exists q; exact F|apply X, C].
Qed.
Definition reset (n : str) (q : equation) (w : world) : world :=
  put_eq n (mkEq (lec q) (method q) (sampl q) (comment q) (block q) (instr q) (date q) no_tests) w.
Lemma reset_same n q w : find (ukey n) (eqs w) = Some q -> same_texts (eqs w) (eqs (reset n q w)).
Proof. intros F. apply (same_put (eqs w) n q); [exact F|repeat split]. Qed.
(** One turn: the equations of the block are estimated, and the results saved. *)
Lemma one_ok n w ns w' : scope w = None -> est_one est vs day rest (Some s) met n w = Ok (true, ns, w') ->
  exists q sc r from v, find (ukey n) (eqs w) = Some q /\ vs = Some v /\ difference (s_start s) (s_start v) = Ok from /\ 1 <= s_nb s /\
  est (if met <? 0 then method q else met) s (members (eqs w) n q) (instruments q) (scls w) (vars w) = (sc, Some r) /\
  ns = map fst (members (eqs w) n q) /\
  kept day rest (members (eqs w) n q) 0 (if met <? 0 then method q else met) s r from (s_nb v) (mkW (eqs (reset n q w)) None sc (vars w)) w' /\
  (forall i, (i < length (members (eqs w) n q))%nat -> exists t, nth_error (r_tests r) i = Some t) /\
  (forall k, in_keys k (members (eqs w) n q) -> exists x, find k (eqs (reset n q w)) = Some x).
Proof.
  intros SC H. unfold est_one in H. destruct (negb (in_scope w n)); [discriminate|]. destruct (find (ukey n) (eqs w)) as [q|] eqn:F; [|discriminate]. fold (reset n q w) in H. cbv zeta in H.
  destruct (s_nb s <? 1) eqn:NB; [discriminate|]. rewrite block_words in H. pose proof (reset_same n q w F) as RS.
  assert (M : exists l, (match elements (block q) with [] => Ok [(n, lec q)] | b => block_of (reset n q w) b end) = Ok l /\ l = members (eqs w) n q /\ (forall k, in_keys k l -> exists x, find k (eqs (reset n q w)) = Some x)).
  { destruct (match elements (block q) with [] => Ok [(n, lec q)] | b => block_of (reset n q w) b end) as [l| |] eqn:B; try discriminate H. exists l. split; [reflexivity|]. clear H.
    assert (MS : members (eqs (reset n q w)) n q = members (eqs w) n q) by (apply members_same; [exact RS|repeat split]). rewrite <- MS.
    unfold members. destruct (elements (block q)) as [|b l'] eqn:EL.
    - injection B as <-. split; [reflexivity|]. intros k [<-|[]]. destruct (same_find _ _ _ _ RS F) as (x & X & _). exists x. exact X.
    - apply (block_ok _ (block q)) in B; [|intros c C; rewrite EL; exact C]. destruct B as [-> X]. split; [reflexivity|]. intros k I. unfold in_keys in I. rewrite map_map in I. apply in_map_iff in I as (c & <- & C). apply X, C. }
  destruct M as (l & ML & EL & KX). rewrite ML in H. cbn [rbind] in H. rewrite instr_words in H. destruct vs as [v|] eqn:VS; [|discriminate]. destruct (s_nb v =? 0); [discriminate|].
  destruct (difference (s_start s) (s_start v)) as [from| |] eqn:D; try discriminate. cbn [rbind] in H.
  destruct (est _ s l _ _ _) as [sc [r|]] eqn:E; [|discriminate]. cbn [scope reset put_eq] in H. rewrite SC in H.
  destruct (save_all _ _ _ _ _ _ _ _ _ _) as [w3| |] eqn:SV; try discriminate. injection H as <- <-. subst l.
  apply save_kept in SV; [|reflexivity|exact KX]. destruct SV as [K X]. exists q, sc, r, from, v. split; [reflexivity|]. split; [reflexivity|]. split; [exact D|]. split; [lia|]. split; [exact E|]. split; [reflexivity|]. split; [exact K|]. split; [exact X|exact KX].
Qed.
(** One turn, whatever its outcome: the texts stay, and the equations out of the block are not changed. *)
Lemma kept_same l m r from nb w w' : kept day rest l 0 m s r from nb w w' -> (forall i n f q, nth_error l i = Some (n, f) -> find (upper n) (eqs w) = Some q -> f = lec q) ->
  (forall k, in_keys k l -> exists q, find k (eqs w) = Some q) -> same_texts (eqs w) (eqs w').
Proof.
  intros K L X k. destruct (in_dec (list_eq_dec ascii_dec) k (map (fun x => upper (fst x)) l)) as [J|J].
  - destruct (X k J) as [q F]. rewrite F. destruct (K_in _ _ _ _ _ _ _ _ _ _ _ K k q J F) as (i & n & f & t & A & B & _ & ->). subst k. split; [exact (L i n f q A F)|repeat split].
  - rewrite (K_out _ _ _ _ _ _ _ _ _ _ _ K k J). destruct (find k (eqs w)); [repeat split|exact I].
Qed.
Lemma members_lec e n q : find (ukey n) e = Some q -> forall i n' f q', nth_error (members e n q) i = Some (n', f) -> find (upper n') e = Some q' -> f = lec q'.
Proof.
  intros F i n' f q' N F'. unfold members in N. destruct (elements (block q)) as [|b l].
  - destruct i as [|i]; [|destruct i; discriminate]. injection N as <- <-. change (upper n) with (ukey n) in F'. rewrite F in F'. injection F' as <-. reflexivity.
  - apply nth_error_In, in_map_iff in N as (c & E & _). injection E as <- <-. rewrite F'. reflexivity.
Qed.
Lemma one_same n w ns w' q sc r from v : find (ukey n) (eqs w) = Some q -> 
  kept day rest (members (eqs w) n q) 0 (if met <? 0 then method q else met) s r from (s_nb v) (mkW (eqs (reset n q w)) None sc (vars w)) w' ->
  (forall k, in_keys k (members (eqs w) n q) -> exists x, find k (eqs (reset n q w)) = Some x) -> ns = map fst (members (eqs w) n q) -> same_texts (eqs w) (eqs w').
Proof.
  intros F K X _. pose proof (reset_same n q w F) as RS. apply (same_trans _ (eqs (reset n q w)) _ RS). apply (kept_same _ _ _ _ _ _ _ K); [|exact X].
  intros i n' f q' N F'. cbn [eqs] in F'. destruct (same_back _ _ _ _ RS F') as (q0 & F0 & T). rewrite (proj1 T). apply (members_lec _ _ _ F i n' f q0 N F0).
Qed.
Definition out_of (e : smap equation) (n k : str) : Prop := forall q, find (ukey n) e = Some q -> k <> ukey n /\ ~ in_keys k (members e n q).
Lemma one_any n w b ns w' : scope w = None -> est_one est vs day rest (Some s) met n w = Ok (b, ns, w') ->
  scope w' = None /\ same_texts (eqs w) (eqs w') /\ (forall k, out_of (eqs w) n k -> find k (eqs w') = find k (eqs w)).
Proof.
  intros SC H. destruct b.
  - destruct (one_ok n w ns w' SC H) as (q & sc & r & from & v & F & _ & _ & _ & _ & NS & K & _ & X).
    split; [apply (K_scope _ _ _ _ _ _ _ _ _ _ _ K)|]. split; [exact (one_same n w ns w' q sc r from v F K X NS)|].
    intros k O. destruct (O q F) as [N1 N2]. rewrite (K_out _ _ _ _ _ _ _ _ _ _ _ K k N2). cbn [eqs reset put_eq]. apply find_put_neq, N1.
  - assert (R : forall q, find (ukey n) (eqs w) = Some q -> same_texts (eqs w) (eqs (reset n q w)) /\ (forall k, out_of (eqs w) n k -> find k (eqs (reset n q w)) = find k (eqs w))).
    { intros q F. split; [exact (reset_same n q w F)|]. intros k O. destruct (O q F) as [N _]. cbn [eqs reset put_eq]. apply find_put_neq, N. }
    unfold est_one in H. destruct (negb (in_scope w n)); [injection H as _ <-; split; [exact SC|split; [apply same_refl|reflexivity]]|].
    destruct (find (ukey n) (eqs w)) as [q|] eqn:F; [|discriminate]. fold (reset n q w) in H. cbv zeta in H. specialize (R q eq_refl).
    destruct (s_nb s <? 1); [injection H as _ <-; split; [exact SC|exact R]|].
    destruct (match vtoms (S2L " ,;") (block q) with [] => Ok [(n, lec q)] | b => block_of (reset n q w) b end) as [l| |]; try discriminate. cbn [rbind] in H.
    destruct vs as [v|]; [|discriminate]. destruct (s_nb v =? 0); [discriminate|]. destruct (difference (s_start s) (s_start v)) as [from| |]; try discriminate. cbn [rbind] in H.
    destruct (est _ s l _ _ _) as [sc [r|]]; [|injection H as _ <-; split; [exact SC|exact R]].
    destruct (save_all _ _ _ _ _ _ _ _ _ _); discriminate.
Qed.
Lemma out_same a b n k : same_texts a b -> out_of a n k -> out_of b n k.
Proof.
  intros S O q F. destruct (same_back _ _ _ _ S F) as (q0 & F0 & T). rewrite (members_same a b n q0 q S T). apply O, F0.
Qed.
Lemma loop_any names : forall done w b w', scope w = None -> est_loop est vs day rest (Some s) met names done w = Ok (b, w') ->
  scope w' = None /\ same_texts (eqs w) (eqs w') /\ (forall k, (forall n, In n names -> out_of (eqs w) n k) -> find k (eqs w') = find k (eqs w)).
Proof.
  induction names as [|n l IH]; intros done w b w' SC H; cbn [est_loop] in H.
  - injection H as _ <-. split; [exact SC|]. split; [apply same_refl|reflexivity].
  - destruct (existsb (str_eqb n) done).
    + destruct (IH _ _ _ _ SC H) as (A & B & C). split; [exact A|]. split; [exact B|]. intros k O. apply C. intros m M. apply O. right. exact M.
    + destruct (est_one _ _ _ _ _ _ n w) as [[[ok ns] w1]| |] eqn:E; try discriminate. cbn [rbind] in H. destruct (one_any n w ok ns w1 SC E) as (S1 & T1 & O1). destruct ok.
      * destruct (IH _ _ _ _ S1 H) as (A & B & C). split; [exact A|]. split; [exact (same_trans _ _ _ T1 B)|]. intros k O. rewrite C.
        -- apply O1, O. left. reflexivity.
        -- intros m M. apply (out_same _ _ _ _ T1), O. right. exact M.
      * injection H as _ <-. split; [exact S1|]. split; [exact T1|]. intros k O. apply O1, O. left. reflexivity.
Qed.
(** The equation with the key [k] holds the results of an estimation of the call. *)
Definition estimated (names : list str) (e0 e : smap equation) (k : str) : Prop :=
  exists h qh m sc va sc' r j t q, In h names /\ find (upper h) e0 = Some qh /\ est m s (members e0 h qh) (instruments qh) sc va = (sc', Some r) /\
  (0 <= met -> m = met) /\ nth_error (map (fun x => upper (fst x)) (members e0 h qh)) j = Some k /\ nth_error (r_tests r) j = Some t /\
  find k e0 = Some q /\ find k e = Some (saved (five m) s day t rest q).
Lemma loop_ok names : forall l done w0 w w', (forall n, In n l -> In n names) -> scope w = None -> same_texts (eqs w0) (eqs w) ->
  (forall n q, In n names -> find (upper n) (eqs w0) = Some q -> in_keys (upper n) (members (eqs w0) n q)) ->
  (forall n, In n done -> estimated names (eqs w0) (eqs w) (upper n)) ->
  est_loop est vs day rest (Some s) met l done w = Ok (true, w') -> forall k, In k (map upper l) \/ estimated names (eqs w0) (eqs w) k -> estimated names (eqs w0) (eqs w') k.
Proof.
  induction l as [|a l IH]; intros done w0 w w' SUB SC ST OWN DN H; cbn [est_loop] in H.
  - injection H as <-. intros k [[]|I]. exact I.
  - destruct (existsb (str_eqb a) done) eqn:EX.
    + intros k I. apply (IH done w0 w w' (fun m M => SUB m (or_intror M)) SC ST OWN DN H). destruct I as [[<-|I]|I]; [right|left; exact I|right; exact I].
      apply existsb_exists in EX as (x & X & E). apply str_eqb_iff in E. subst x. apply DN, X.
    + destruct (est_one _ _ _ _ _ _ a w) as [[[ok ns] w1]| |] eqn:E; try discriminate. cbn [rbind] in H. destruct ok; [|discriminate].
      destruct (one_any a w true ns w1 SC E) as (S1 & T1 & O1). destruct (one_ok a w ns w1 SC E) as (q & sc & r & from & v & F & _ & _ & _ & EE & NS & K & XT & XK).
      destruct (same_back _ _ _ _ ST F) as (q0 & F0 & T0). change (ukey a) with (upper a) in F0. assert (AN : In a names) by (apply SUB; left; reflexivity).
      rewrite (members_same _ _ a q0 q ST T0) in *. rewrite (instr_same q0 q T0) in EE.
      assert (NEW : forall k, in_keys k (members (eqs w0) a q0) -> estimated names (eqs w0) (eqs w1) k).
      { intros k I. destruct (XK k I) as [x X]. destruct (K_in _ _ _ _ _ _ _ _ _ _ _ K k x I X) as (i & n' & f & t & N1 & N2 & N3 & N4). cbn [Nat.add] in N3.
        destruct (same_back _ _ _ _ (reset_same a q w F) X) as (y & Y & TY). destruct (same_back _ _ _ _ ST Y) as (z & Z1 & TZ).
        exists a, q0, (if met <? 0 then method q else met), (scls w), (vars w), sc, r, i, t, z. split; [exact AN|]. split; [exact F0|]. split; [exact EE|]. split; [intros P; replace (met <? 0) with false by lia; reflexivity|].
        split; [rewrite nth_error_map, N1; cbn [option_map fst]; rewrite N2; reflexivity|]. split; [exact N3|]. split; [exact Z1|]. rewrite N4. f_equal. unfold saved. destruct TY as (_ & -> & -> & ->), TZ as (_ & -> & -> & ->). f_equal.
        subst k. apply (members_lec (eqs w0) a q0 F0 i n' f z N1 Z1). }
      assert (OLD : forall k, estimated names (eqs w0) (eqs w) k -> estimated names (eqs w0) (eqs w1) k).
      { intros k P. destruct (in_dec (list_eq_dec ascii_dec) k (map (fun x => upper (fst x)) (members (eqs w0) a q0))) as [J|J]; [apply NEW, J|].
        destruct P as (h & qh & m & sc1 & va & sc' & r1 & j & t & q1 & P1 & P2 & P3 & P4 & P5 & P6 & P7 & P8). exists h, qh, m, sc1, va, sc', r1, j, t, q1. do 7 (split; [assumption|]).
        rewrite O1; [exact P8|]. intros q2 F2. rewrite F in F2. injection F2 as <-. rewrite (members_same _ _ a q0 q ST T0). split; [|exact J]. intros ->. apply J. exact (OWN a q0 AN F0). }
      intros k I. apply (IH (ns ++ done) w0 w1 w' (fun m M => SUB m (or_intror M)) S1 (same_trans _ _ _ ST T1) OWN); [|exact H|].
      * intros m M. apply in_app_iff in M as [M|M]; [|apply OLD, DN, M]. apply NEW. subst ns. unfold in_keys. apply in_map_iff in M as (y & <- & Y). apply (in_map (fun x => upper (fst x)) _ _ Y).
      * destruct I as [[<-|I]|I]; [|left; exact I|right; apply OLD, I]. right. apply NEW. exact (OWN a q0 AN F0).
Qed.
End Loop.

(** * The theorems *)
(** After a call, whatever its outcome: the formulas, comments, blocks and instruments are those that were there, and the equations that
    are neither named nor in the block of one that is are not changed. *)
Theorem C102_texts : forall est vs day rest smpl met names w b w', scope w = None -> estimate est vs day rest smpl met names w = Ok (b, w') ->
  same_texts (eqs w) (eqs w') /\
  (forall k, (forall n q, In n names -> M_Kdb.find (upper n) (eqs w) = Some q -> k <> upper n /\ ~ in_keys k (members (eqs w) n q)) ->
   M_Kdb.find k (eqs w') = M_Kdb.find k (eqs w)).
Proof.
  intros est vs day rest smpl met names w b w' SC H. unfold estimate in H. destruct names as [|n0 l]; [discriminate|]. set (names := n0 :: l) in *. destruct (5 <=? met); [discriminate|].
  destruct (match smpl with Some s => Some s | None => vs end) as [s|]; [|discriminate]. destruct (loop_any _ _ _ _ _ _ _ _ _ _ _ SC H) as (_ & A & B). split; [exact A|].
  intros k O. apply B. intros n N q F. exact (O n q N F).
Qed.
(** After a call that succeeds: each equation that is named holds the tests, the method and the sample of an estimation of the call,
    at its position in the block; the sample is the one that was given or else the one of the variables. *)
Theorem C102_equations_partial : forall est vs day rest smpl met names w w', scope w = None -> estimate est vs day rest smpl met names w = Ok (true, w') ->
  (forall n q, In n names -> M_Kdb.find (upper n) (eqs w) = Some q -> in_keys (upper n) (members (eqs w) n q)) ->
  exists s, (smpl = Some s \/ smpl = None /\ vs = Some s) /\ forall n, In n names ->
  exists h qh m sc va sc' r j t q, In h names /\ M_Kdb.find (upper h) (eqs w) = Some qh /\
    est m s (members (eqs w) h qh) (instruments qh) sc va = (sc', Some r) /\ (0 <= met -> m = met) /\
    nth_error (map (fun x => upper (fst x)) (members (eqs w) h qh)) j = Some (upper n) /\ nth_error (r_tests r) j = Some t /\
    M_Kdb.find (upper n) (eqs w) = Some q /\ M_Kdb.find (upper n) (eqs w') = Some (saved (five m) s day t rest q).
Proof.
  intros est vs day rest smpl met names w w' SC H OWN. unfold estimate in H. destruct names as [|n0 l]; [discriminate|]. set (names := n0 :: l) in *. destruct (5 <=? met) eqn:M5; [discriminate|].
  destruct (match smpl with Some s => Some s | None => vs end) as [s|] eqn:ES; [|discriminate]. exists s. split; [destruct smpl; [left; exact ES|right; split; [reflexivity|exact ES]]|].
  intros n N. pose proof (loop_ok est vs day rest s (if 0 <=? met then met else -1) names names [] w w w' (fun m M => M) SC (same_refl _) OWN (fun m (M : In m []) => match M with end) H (upper n) (or_introl (in_map upper _ _ N))) as P.
  destruct P as (h & qh & m & sc & va & sc' & r & j & t & q & P1 & P2 & P3 & P4 & P5 & P6 & P7 & P8). exists h, qh, m, sc, va, sc', r, j, t, q. do 3 (split; [assumption|]).
  split; [intros P; rewrite P4; replace (0 <=? met) with true by lia; reflexivity || lia|]. repeat (split; [assumption|]). exact P8.
Qed.
(** One equation is named: its whole block, the scalars and the series after the estimation. *)
Theorem C102_block : forall est vs day rest s met n w w', scope w = None -> estimate est vs day rest (Some s) met [n] w = Ok (true, w') ->
  exists q m sc r from v, M_Kdb.find (upper n) (eqs w) = Some q /\ vs = Some v /\ difference (s_start s) (s_start v) = Ok from /\
  m = (if met <? 0 then method q else met) /\ est m s (members (eqs w) n q) (instruments q) (scls w) (vars w) = (sc, Some r) /\
  (NoDup (map (fun x => upper (fst x)) (members (eqs w) n q)) -> forall j k, nth_error (map (fun x => upper (fst x)) (members (eqs w) n q)) j = Some k ->
   exists t c o u q0, nth_error (r_tests r) j = Some t /\ nth_error (r_calc r) j = Some c /\ nth_error (r_obs r) j = Some o /\ nth_error (r_res r) j = Some u /\
   M_Kdb.find k (eqs w) = Some q0 /\ M_Kdb.find k (eqs w') = Some (saved (five m) s day t rest q0) /\
   (forall a x, In (a, x) (scalar_values (map to_float t ++ rest) (s_nb s) (r_nce r)) -> M_Kdb.find (scalar_at j a) (scls w') = Some (mkScl x (d_ofZ 1) d_na)) /\
   exists v1 v2 v3, M_Kdb.find (variable_at (S2L "_YCALC") j) (vars w') = Some v1 /\ M_Kdb.find (variable_at (S2L "_YOBS") j) (vars w') = Some v2 /\
     M_Kdb.find (variable_at (S2L "_YRES") j) (vars w') = Some v3 /\ holds v1 c from (s_nb v) /\ holds v2 o from (s_nb v) /\ holds v3 u from (s_nb v)) /\
  (forall k, (forall j a, (j < length (members (eqs w) n q))%nat -> In a (map fst (scalar_values [] 0 0)) -> k <> scalar_at j a) -> M_Kdb.find k (scls w') = M_Kdb.find k sc) /\
  (forall k, (forall j p, (j < length (members (eqs w) n q))%nat -> In p [S2L "_YCALC"; S2L "_YOBS"; S2L "_YRES"] -> k <> variable_at p j) ->
   M_Kdb.find k (vars w') = M_Kdb.find k (vars w)).
Proof.
  intros est vs day rest s met n w w' SC H. unfold estimate in H. destruct (5 <=? met) eqn:M5; [discriminate|]. set (met' := if 0 <=? met then met else -1) in *. cbn [est_loop existsb] in H.
  destruct (est_one _ _ _ _ _ _ n w) as [[[ok ns] w1]| |] eqn:E; try discriminate. cbn [rbind] in H. destruct ok; [|discriminate]. injection H as ->.
  destruct (one_ok est vs day rest s met' n w ns w' SC E) as (q & sc & r & from & v & F & V & D & _ & EE & _ & K & XT & XK).
  assert (EM : (if met' <? 0 then method q else met') = (if met <? 0 then method q else met)) by (unfold met'; destruct (0 <=? met) eqn:P; [reflexivity|replace (met <? 0) with true by lia; reflexivity]).
  rewrite EM in *. exists q, (if met <? 0 then method q else met), sc, r, from, v. do 5 (split; [assumption || reflexivity|]). split; [|split].
  - intros ND j k J. assert (LJ : (j < length (members (eqs w) n q))%nat) by (rewrite <- (map_length (fun x => upper (fst x))); apply nth_error_Some; rewrite J; discriminate).
    destruct (XT j LJ) as [t T]. destruct (K_var _ _ _ _ _ _ _ _ _ _ _ K j LJ) as (c & o & u & v1 & v2 & v3 & A1 & A2 & A3 & A4 & A5 & A6 & A7 & A8 & A9).
    assert (IK : in_keys k (members (eqs w) n q)) by (apply (nth_error_In _ _ J)). destruct (XK k IK) as [x X]. destruct (same_back _ _ _ _ (reset_same n q w F) X) as (y & Y & TY).
    exists t, c, o, u, y. do 4 (split; [assumption|]). split; [exact Y|]. split.
    + destruct (K_in _ _ _ _ _ _ _ _ _ _ _ K k x IK X) as (i & n' & f & t' & N1 & N2 & N3 & N4). cbn [Nat.add] in N3.
      assert (EI : nth_error (map (fun x => upper (fst x)) (members (eqs w) n q)) i = Some k) by (rewrite nth_error_map, N1; cbn [option_map fst]; rewrite N2; reflexivity).
      assert (i = j) by (apply (proj1 (NoDup_nth_error _) ND); [apply nth_error_Some; rewrite EI; discriminate|rewrite EI, J; reflexivity]). subst i. rewrite T in N3. injection N3 as <-.
      rewrite N4. f_equal. unfold saved. destruct TY as (_ & -> & -> & ->). f_equal. subst k. apply (members_lec (eqs w) n q F j n' f y N1 Y).
    + split; [intros a z I; apply (K_scl _ _ _ _ _ _ _ _ _ _ _ K j t a z LJ T I)|]. exists v1, v2, v3. repeat split; try assumption; apply A4 || apply A5 || apply A6.
  - intros k O. rewrite (K_scl_out _ _ _ _ _ _ _ _ _ _ _ K k); [reflexivity|]. exact O.
  - intros k O. rewrite (K_var_out _ _ _ _ _ _ _ _ _ _ _ K k); [reflexivity|]. exact O.
Qed.

(** * Cases *)
Definition y (n : Z) : period := mkP n 1 "Y".
Definition vs5 : sample := mkS (y 2000) (y 2004) 5.
Definition s3 : sample := mkS (y 2001) (y 2003) 3.
(** An estimation whose tests are the length of the formula, and that fails for the equation F. *)
Definition ex_est (m : Z) (s : sample) (l : list (str * str)) (i : list str) (sc : smap scalar) (v : smap (list dbl)) : smap scalar * option results :=
  if existsb (fun x => str_eqb (fst x) (S2L "F")) l then (sc, None)
  else let rows := map (fun x => repeat (d_ofZ (Z.of_nat (length (snd x)))) (Z.to_nat (s_nb s))) l in
       (sc, Some (mkR (map (fun x => repeat (d_ofZ (Z.of_nat (length (snd x)))) 11) l) 1 rows rows rows)).
Definition eq_of (f b : str) : equation := mkEq f 1 (Some vs5) (S2L "a comment") b (S2L "A,B") 20000101 (repeat (d_ofZ 7) 20).
Definition ex_world : world :=
  mkW [(S2L "A", eq_of (S2L "A:=c1") (S2L "A;B")); (S2L "B", eq_of (S2L "B:=c1+c2") (S2L "A;B")); (S2L "C", eq_of (S2L "C:=c1+c2+c3") []); (S2L "D", eq_of (S2L "D:=c4") (S2L "A"));
       (S2L "E", eq_of (S2L "E:=c5") (S2L "E,X")); (S2L "F", eq_of (S2L "F:=c5") (S2L "F"))] None [(S2L "c1", mkScl (d_ofZ 2) (d_ofZ 1) d_na)] [(S2L "A", repeat (d_ofZ 1) 5)].
Definition rest9 : list dbl := repeat (d_ofZ 99) 9.
Definition eq_at (k : str) (r : res (bool * world)) : option equation := match r with Ok (_, w) => M_Kdb.find k (eqs w) | _ => None end.
Definition scl_at (k : str) (r : res (bool * world)) : option dbl := match r with Ok (_, w) => option_map M_Ascii.value (M_Kdb.find k (scls w)) | _ => None end.
Definition var_of (k : str) (r : res (bool * world)) : option (list dbl) := match r with Ok (_, w) => M_Kdb.find k (vars w) | _ => None end.
Definition outcome (r : res (bool * world)) : option bool := match r with Ok (b, _) => Some b | _ => None end.
Example C102_case : scope ex_world = None /\
  (forall n q, In n [S2L "A"; S2L "b"; S2L "C"] -> M_Kdb.find (upper n) (eqs ex_world) = Some q -> in_keys (upper n) (members (eqs ex_world) n q)) /\
  let r := estimate ex_est (Some vs5) 20260101 rest9 (Some s3) (-1) [S2L "A"; S2L "b"; S2L "C"] ex_world in outcome r = Some true /\
  option_map tests (eq_at (S2L "B") r) = Some (repeat (d_ofZ 8) 11 ++ rest9) /\ option_map sampl (eq_at (S2L "C") r) = Some (Some s3) /\
  option_map tests (eq_at (S2L "E") r) = Some (repeat (d_ofZ 7) 20) /\ option_map comment (eq_at (S2L "B") r) = Some (S2L "a comment").
Proof.
  split; [reflexivity|]. split; [|vm_compute; repeat split].
  intros n q I F. cbn [In] in I. destruct I as [<-|[<-|[<-|[]]]]; vm_compute in F; injection F as <-; vm_compute; tauto.
Qed.
Example C102_block_case : let r := estimate ex_est (Some vs5) 20260101 rest9 (Some s3) (-1) [S2L "A"] ex_world in outcome r = Some true /\
  NoDup (map (fun x => upper (fst x)) (members (eqs ex_world) (S2L "A") (eq_of (S2L "A:=c1") (S2L "A;B")))) /\
  scl_at (S2L "e1_r2") r = Some (d_ofZ 8) /\ scl_at (S2L "e0_n") r = Some (d_ofZ 3) /\ scl_at (S2L "c1") r = Some (d_ofZ 2) /\
  var_of (S2L "_YRES1") r = Some [d_na; d_ofZ 8; d_ofZ 8; d_ofZ 8; d_na] /\ option_map method (eq_at (S2L "B") r) = Some 1.
Proof. split; [vm_compute; reflexivity|]. split; [|vm_compute; repeat split]. vm_compute. repeat (constructor; [cbn; intuition discriminate|]). constructor. Qed.
(** A block that names an equation that does not exist: the list of the names is freed twice. *)
Lemma block_missing w t b : forall l, (forall c, In c l -> In c (elements t)) -> In b l -> find (upper b) (eqs w) = None -> block_of w l = UB.
Proof.
  induction l as [|c l IH]; intros E I N; [contradiction|]. cbn [block_of]. rewrite (sqz_element t c (E c (or_introl eq_refl))). destruct (find (ukey c) (eqs w)) eqn:F; [|reflexivity].
  destruct I as [->|I]; [change (upper b) with (ukey b) in N; rewrite N in F; discriminate|]. rewrite (IH (fun d D => E d (or_intror D)) I N). reflexivity.
Qed.
Theorem C102_missing_in_block_refuted : forall est vs day rest s met n w q b, scope w = None -> met < 5 -> 1 <= s_nb s ->
  M_Kdb.find (upper n) (eqs w) = Some q -> In b (elements (block q)) -> upper b <> upper n -> M_Kdb.find (upper b) (eqs w) = None ->
  estimate est vs day rest (Some s) met [n] w = UB.
Proof.
  intros est vs day rest s met n w q b SC M S F I D N. unfold estimate. replace (5 <=? met) with false by lia. cbn [est_loop existsb]. unfold est_one, in_scope. change (upper n) with (ukey n) in *. rewrite SC, F. cbn [negb]. cbv zeta.
  replace (s_nb s <? 1) with false by lia. rewrite block_words. fold (reset n q w).
  assert (X : block_of (reset n q w) (elements (block q)) = UB) by (apply (block_missing _ (block q) b); [intros c C; exact C|exact I|cbn [eqs reset put_eq]; rewrite find_put_neq by exact D; exact N]).
  destruct (elements (block q)) as [|x l]; [contradiction|]. rewrite X. reflexivity.
Qed.
Example C102_missing_case : In (S2L "X") (elements (block (eq_of (S2L "E:=c5") (S2L "E,X")))) /\ M_Kdb.find (upper (S2L "X")) (eqs ex_world) = None /\
  estimate ex_est (Some vs5) 20260101 rest9 (Some s3) (-1) [S2L "E"] ex_world = UB.
Proof. vm_compute. tauto. Qed.
(** An equation whose block does not name it: the call succeeds, its tests are lost and it is not estimated. *)
Theorem C102_out_of_block_refuted : exists w n, scope w = None /\ let r := estimate ex_est (Some vs5) 20260101 rest9 (Some s3) (-1) [n] w in
  outcome r = Some true /\ option_map tests (M_Kdb.find n (eqs w)) = Some (repeat (d_ofZ 7) 20) /\ option_map tests (eq_at n r) = Some (repeat (d_ofZ 0) 20).
Proof. exists ex_world, (S2L "D"). vm_compute. repeat split. Qed.
(** Two blocks in one call: the scalars e0_... are those of the last one. *)
Theorem C102_two_blocks_refuted : let r := estimate ex_est (Some vs5) 20260101 rest9 (Some s3) (-1) [S2L "A"; S2L "C"] ex_world in outcome r = Some true /\
  scl_at (S2L "e0_r2") r = Some (d_ofZ 11) /\ option_map (fun q => nth 7 (tests q) d_na) (eq_at (S2L "A") r) = Some (d_ofZ 5).
Proof. vm_compute. repeat split. Qed.
(** A call that fails: the first equation keeps its new results, the tests of the second are lost. *)
Theorem C102_atomic_refuted : let r := estimate ex_est (Some vs5) 20260101 rest9 (Some s3) (-1) [S2L "C"; S2L "F"] ex_world in outcome r = Some false /\
  option_map sampl (eq_at (S2L "C") r) = Some (Some s3) /\ option_map tests (eq_at (S2L "F") r) = Some (repeat (d_ofZ 0) 20).
Proof. vm_compute. repeat split. Qed.
(** The command EqsEstimate with the first equation of a block: the other ones lose their comment, their block and their instruments. *)
Theorem C102_command_refuted : let r := B_EqsEstimateEqs ex_est (Some vs5) 20260101 rest9 s3 [S2L "A"] ex_world in outcome r = Some true /\
  option_map (fun q => (comment q, block q, instr q)) (eq_at (S2L "A") r) = Some (S2L "a comment", S2L "A;B", S2L "A,B") /\
  option_map (fun q => (comment q, block q, instr q)) (M_Kdb.find (S2L "B") (eqs ex_world)) = Some (S2L "a comment", S2L "A;B", S2L "A,B") /\
  option_map (fun q => (comment q, block q, instr q)) (eq_at (S2L "B") r) = Some ([], S2L "B", []).
Proof. vm_compute. repeat split. Qed.
(** Nine of the values stored with an equation are not initialised: they depend on what the memory held. *)
Theorem C102_other_tests_refuted : exists rest rest', length rest = 9%nat /\ length rest' = 9%nat /\
  estimate ex_est (Some vs5) 20260101 rest (Some s3) (-1) [S2L "C"] ex_world <> estimate ex_est (Some vs5) 20260101 rest' (Some s3) (-1) [S2L "C"] ex_world.
Proof.
  exists rest9, (repeat (d_ofZ 0) 9). split; [reflexivity|]. split; [reflexivity|]. intros E. apply (f_equal (fun r => option_map (fun q => nth 11 (tests q) d_na) (eq_at (S2L "C") r))) in E. vm_compute in E. discriminate E.
Qed.

Print Assumptions C102_texts.
Print Assumptions C102_equations_partial.
Print Assumptions C102_block.
Print Assumptions C102_missing_in_block_refuted.
Print Assumptions C102_out_of_block_refuted.
Print Assumptions C102_two_blocks_refuted.
Print Assumptions C102_atomic_refuted.
Print Assumptions C102_command_refuted.
Print Assumptions C102_other_tests_refuted.
