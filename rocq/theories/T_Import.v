(** Property C97: the import of variables from an ASCII file, with rules to select and rename them. *)
From Coq Require Import ZArith Ascii String List Bool Lia Sorted Floats.SpecFloat.
From Verif Require Import M_Base M_Report M_Time M_Names M_Lex M_Double M_Decimal M_Kdb M_Grep M_Ascii M_Import
  S_Time S_Names S_Grep S_Ascii S_Import L_Time L_Names L_Kdb L_Grep2 L_Ascii L_Ascii2 L_Ascii3 T_Ascii T_Ascii2 L_Import.
Import ListNotations.
Open Scope Z_scope.

(** * Rules *)
(** A file with one rule per line is read as these rules, in order. *)
Theorem C97_rules_partial : forall rs, rs <> [] -> Forall writable_rule rs -> IMP_readrule (Some (flat_map rule_line rs)) = Ok rs.
Proof.
  intros rs N W. unfold IMP_readrule. rewrite lines_read by (exact W || lia). cbn [rbind]. destruct rs; [congruence|reflexivity].
Qed.
Print Assumptions C97_rules_partial.
Definition ex_rules : rules := [(S2L "B*", S2L "--NEW_+++"); (S2L "A?", S2L "X+"); (S2L "a*", S2L "X+++")].
Ltac is_word := split; [discriminate|repeat (constructor; [reflexivity|]); constructor].
Lemma ex_rules_ok : ex_rules <> [] /\ Forall writable_rule ex_rules /\ sane ex_rules.
Proof.
  split; [discriminate|]. split.
  - repeat (constructor; [split; [is_word|split; [is_word|cbn; lia]]|]); constructor.
  - repeat (constructor; [vm_compute; repeat split|]); constructor.
Qed.
Example C97_rules_ex : ex_rules <> [] /\ Forall writable_rule ex_rules /\
  flat_map rule_line ex_rules = S2L "B* --NEW_+++" ++ LF :: S2L "A? X+" ++ LF :: S2L "a* X+++" ++ [LF].
Proof. split; [apply ex_rules_ok|]. split; [apply ex_rules_ok|]. reflexivity. Qed.

Lemma renamed_fun r s o : renamed r s o -> forall o', renamed r s o' -> o = o'.
Proof.
  induction 1 as [s|c r C|r x s o _ IH|r x s o _ IH|c r s o N1 N2 _ IH]; intros o' R.
  - inversion R. reflexivity.
  - inversion R; subst; [reflexivity|]. destruct C; congruence.
  - inversion R; subst; [f_equal; apply IH; assumption|congruence].
  - inversion R; subst; [apply IH; assumption|congruence].
  - inversion R as [|c' r' [C|C]| | |]; subst; try congruence. f_equal. apply IH. assumption.
Qed.
Lemma new_name_not_none rs n m : new_name rs n m -> ~ no_rule rs n.
Proof. intros (a & p & r & b & o & -> & _ & M & _) N. unfold no_rule in N. apply Forall_app in N as [_ N]. inversion N as [|? ? X _]. exact (X M). Qed.
Lemma new_name_fun rs n m : new_name rs n m -> forall m', new_name rs n m' -> m = m'.
Proof.
  intros (a & p & r & b & o & -> & F & M & R & ->) m' (a' & p' & r' & b' & o' & E & F' & M' & R' & ->).
  assert (a = a' /\ (p, r) :: b = (p', r') :: b') as [_ E2].
  { revert a' E F'. induction a as [|x a IH]; intros [|x' a'] E F'; cbn [app] in *.
    - split; [reflexivity|exact E].
    - injection E as E1 _. inversion F' as [|? ? X _]; subst. exfalso. apply X. exact M.
    - injection E as E1 _. inversion F as [|? ? X _]; subst. exfalso. apply X. exact M'.
    - injection E as -> E. inversion F; inversion F'; subst. destruct (IH ltac:(assumption) a' E ltac:(assumption)) as [-> ->]. split; reflexivity. }
  injection E2 as -> -> ->. rewrite (renamed_fun _ _ _ R _ R'). reflexivity.
Qed.
(** A name is changed as the first rule that matches it says; a name that no rule matches is not taken. *)
Theorem C97_change : forall rs name, sane rs ->
  (forall m, IMP_change rs name = Ok (Some m) <-> new_name rs name m) /\ (IMP_change rs name = Ok None <-> no_rule rs name).
Proof.
  intros rs name S. destruct (change_spec rs name S) as [(m & E & N)|[E N]]; rewrite E.
  - split; [intros m'; split|split].
    + intros H. injection H as <-. exact N.
    + intros N'. rewrite (new_name_fun _ _ _ N _ N'). reflexivity.
    + intros H. discriminate H.
    + intros H. destruct (new_name_not_none _ _ _ N H).
  - split; [intros m'; split|split].
    + intros H. discriminate H.
    + intros H. destruct (new_name_not_none _ _ _ H N).
    + intros _. exact N.
    + intros _. reflexivity.
Qed.
Print Assumptions C97_change.
Example C97_change_ex : sane ex_rules /\ IMP_change ex_rules (S2L "B_1") = Ok (Some (S2L "NEW_1")) /\
  IMP_change ex_rules (S2L "AB") = Ok (Some (S2L "XA")) /\ IMP_change ex_rules (S2L "ABC") = Ok (Some (S2L "XABC")) /\ IMP_change ex_rules (S2L "CD") = Ok None.
Proof. split; [apply ex_rules_ok|]. vm_compute. repeat split. Qed.

(** * Variables *)
Definition good_values (s : sample) (db : list (str * list dbl)) : Prop :=
  Forall (fun v => of_length s v /\ Forall (fun x => x = d_na \/ exact 15 x) v) (map snd db).
Lemma good_kept s db : good_values s db -> Forall (vec_good (s_nb s)) (map snd db) /\ map (fun x => map (kept 15) (snd x)) db = map snd db.
Proof.
  intros P. assert (X : forall x, x = d_na \/ exact 15 x -> writable 15 x /\ kept 15 x = x).
  { intros x [-> |E]; [apply missing_writable; reflexivity|]. destruct (exact_writable 15 x ltac:(lia) E) as [W S]. split; [exact W|].
    unfold kept. rewrite S. destruct E as [-> _]. reflexivity. }
  split.
  - eapply Forall_impl; [|exact P]. intros v [L Pv]. split; [exact L|]. eapply Forall_impl; [|exact Pv]. intros x Px. apply X. exact Px.
  - unfold good_values in P. induction db as [|[n v] db IH]; [reflexivity|]. cbn [map fst snd] in *. inversion P as [|? ? [_ Pv] Pl]; subst.
    rewrite IH by exact Pl. f_equal. clear -Pv X. induction Pv as [|x v Px Pv IH]; [reflexivity|]. cbn [map]. rewrite IH, (proj2 (X x Px)). reflexivity.
Qed.
(** Full statement: the variables of a file are imported without loss. It is false (see the theorems that follow); without rules, it
    holds for a file that the program has written, under the conditions of C70 on the sample and the values. The names of the keywords
    of tables, that C70 excludes, are imported as the others. *)
Theorem C97_default_partial : forall s db, sample_ok s -> years_ok s -> database VARIABLES db -> no_sharp db -> good_values s db ->
  import_ascii None (save_vars s db) = Done (mkVdb (Some s) db).
Proof.
  intros s db SO [Y1 Y2] D N P. destruct (good_kept s db P) as [G K]. pose proof D as [Srt A].
  assert (Len : forall n, In n (map fst db) -> accepted VARIABLES n /\ (length n <= 20)%nat).
  { intros n H. rewrite Forall_forall in A. specialize (A n H). split; [exact A|]. destruct A as (c & u & _ & L & _). exact L. }
  rewrite (import_ascii_ok None default_rules s db (map Some (map fst db)) eq_refl D N SO Y1 Y2 G), K.
  - do 2 f_equal. rewrite map_map.
    assert (E : forall acc, puts_some (combine (map (fun x => Some (fst x)) db) (map snd db)) acc = puts db acc).
    { clear. induction db as [|[n v] db IH]; intros acc; [reflexivity|]. exact (IH (M_Kdb.put n v acc)). }
    rewrite E, puts_sorted; [reflexivity|exact Srt].
  - clear -Len. induction (map fst db) as [|n l IH]; cbn [map]; constructor.
    + destruct (Len n (or_introl eq_refl)) as [A L]. split; [apply default_change; exact L|exact A].
    + apply IH. intros m Hm. apply Len. right. exact Hm.
Qed.
Print Assumptions C97_default_partial.
Definition ex_date : list (str * list dbl) := [(S2L "A", [d_decimal 1 (-1); d_na; d_decimal 7 20]); (S2L "DATE", [S754_zero false; d_decimal 7 20; d_na])].
Example C97_default_ex : sample_ok smp3 /\ years_ok smp3 /\ database VARIABLES ex_date /\ no_sharp ex_date /\ good_values smp3 ex_date /\
  save_vars smp3 ex_date = S2L "sample 2000Y1 2002Y1" ++ LF :: S2L "A 0.1 na 7e+20 " ++ LF :: S2L "DATE 0 7e+20 na " ++ [LF].
Proof.
  split; [apply smp3_ok|]. split; [apply smp3_ok|]. split; [is_database|]. split; [is_no_sharp|]. split; [|vm_compute; reflexivity].
  cbn [ex_date map snd]. constructor; [|constructor; [|constructor]]; (split; [reflexivity|]).
  - constructor; [right; apply ex_decimal; lia|]. constructor; [left; reflexivity|]. constructor; [|constructor]. right. apply ex_decimal; lia.
  - constructor; [right; split; [reflexivity|left; reflexivity]|]. constructor; [right; apply ex_decimal; lia|]. constructor; [left; reflexivity|constructor].
Qed.

Lemma news_exist rs (S : sane rs) : forall l : list (str * list dbl), (forall n m, In n (map fst l) -> new_name rs n m -> accepted VARIABLES m) ->
  exists news, Forall2 (given rs) news (map fst l).
Proof.
  induction l as [|[n v] l IH]; intros H; cbn [map fst] in *; [exists []; constructor|].
  destruct IH as [news F]; [intros k m I; apply H; right; exact I|].
  destruct (change_spec rs n S) as [(m & E & N)|[E N]].
  - exists (Some m :: news). constructor; [split; [exact E|apply (H n m (or_introl eq_refl) N)]|exact F].
  - exists (None :: news). constructor; [split; [exact E|exact I]|exact F].
Qed.
Lemma last_spec rs (S : sane rs) k : forall (l : list (str * list dbl)) news, Forall2 (given rs) news (map fst l) ->
  match last_for k (combine news (map snd l)) with
  | Some v => exists a n b, l = a ++ (n, v) :: b /\ new_name rs n k /\ (forall n' v', In (n', v') b -> ~ new_name rs n' k)
  | None => forall n v, In (n, v) l -> ~ new_name rs n k
  end.
Proof.
  induction l as [|[n v] l IH]; intros news F; cbn [map fst snd] in *; inversion F as [|o ? news' ? [Ch _] F']; subst; cbn [combine last_for].
  - intros n v [].
  - specialize (IH _ F'). destruct (last_for k (combine news' (map snd l))) as [w|].
    + destruct IH as (a & m & b & -> & N & L). exists ((n, v) :: a), m, b. split; [reflexivity|]. split; [exact N|exact L].
    + pose proof (C97_change rs n S) as [CS CN]. destruct o as [m|].
      * apply CS in Ch. destruct (str_eqb m k) eqn:E.
        -- apply str_eqb_iff in E. subst m. exists [], n, l. split; [reflexivity|]. split; [exact Ch|exact IH].
        -- intros n' v' [X|X]; [injection X as <- <-; intros Y; rewrite (new_name_fun _ _ _ Ch _ Y), str_eqb_refl in E; discriminate E|apply (IH _ _ X)].
      * apply CN in Ch. intros n' v' [X|X]; [injection X as <- <-; intros Y; destruct (new_name_not_none _ _ _ Y Ch)|apply (IH _ _ X)].
Qed.
(** With rules: the variables imported are those of the file, under their new names; when two have the same new name, the last of the
    file is the one that stays. *)
Theorem C97_import_partial : forall rs s db, rs <> [] -> Forall writable_rule rs -> sane rs ->
  sample_ok s -> years_ok s -> database VARIABLES db -> no_sharp db -> good_values s db ->
  (forall n m, In n (map fst db) -> new_name rs n m -> accepted VARIABLES m) ->
  exists db', import_ascii (Some (flat_map rule_line rs)) (save_vars s db) = Done (mkVdb (Some s) db') /\ sorted db' /\
    forall k v, M_Kdb.find k db' = Some v <->
      exists a n b, db = a ++ (n, v) :: b /\ new_name rs n k /\ (forall n' v', In (n', v') b -> ~ new_name rs n' k).
Proof.
  intros rs s db NE W S SO [Y1 Y2] D N P A. destruct (good_kept s db P) as [G K]. destruct (news_exist rs S db A) as [news F]. eexists. split; [|split].
  - exact (import_ascii_ok _ rs s db news (C97_rules_partial rs NE W) D N SO Y1 Y2 G F).
  - apply sorted_puts_some. constructor.
  - intros k v. rewrite find_puts_some, K. pose proof (last_spec rs S k db news F) as L. destruct (last_for k (combine news (map snd db))) as [w|].
    + destruct L as (a & n & b & E & Nn & L). split.
      * intros H. injection H as <-. exists a, n, b. split; [exact E|]. split; [exact Nn|exact L].
      * intros (a' & n' & b' & E' & Nn' & L'). f_equal. subst db. clear -E' Nn Nn' L L'.
        revert a' E'. induction a as [|x a IH]; intros [|x' a'] E; cbn [app] in E.
        -- congruence.
        -- injection E as _ E. exfalso. apply (L n' v); [rewrite E; apply in_or_app; right; left; reflexivity|exact Nn'].
        -- injection E as _ E. exfalso. apply (L' n w); [rewrite <- E; apply in_or_app; right; left; reflexivity|exact Nn].
        -- injection E as _ E. exact (IH a' E).
    + cbn. split; [discriminate|]. intros (a & n & b & E & Nn & _). exfalso. apply (L n v); [rewrite E; apply in_or_app; right; left; reflexivity|exact Nn].
Qed.
Print Assumptions C97_import_partial.
(** B_1 is taken as NEW_1, CD is not taken; AB and AC are both taken as XA, with the values of AC. *)
Definition ex_imp : list (str * list dbl) := [(S2L "AB", [d_decimal 1 0; d_na; d_na]); (S2L "AC", [d_decimal 2 0; d_na; d_na]); (S2L "B_1", [d_na; d_na; d_decimal 3 0]); (S2L "CD", [d_na; d_na; d_na])].
Example C97_import_ex : database VARIABLES ex_imp /\ no_sharp ex_imp /\ good_values smp3 ex_imp /\
  (forall n m, In n (map fst ex_imp) -> new_name ex_rules n m -> accepted VARIABLES m) /\
  import_ascii (Some (flat_map rule_line ex_rules)) (save_vars smp3 ex_imp) =
    Done (mkVdb (Some smp3) [(S2L "NEW_1", [d_na; d_na; d_decimal 3 0]); (S2L "XA", [d_decimal 2 0; d_na; d_na])]).
Proof.
  split; [is_database|]. split; [is_no_sharp|]. split; [|split; [|vm_compute; reflexivity]].
  - cbn [ex_imp map snd]. repeat (constructor; [split; [reflexivity|]; repeat (constructor; [first [left; reflexivity|right; apply ex_decimal; lia]|]); constructor|]). constructor.
  - intros n m I H. apply (C97_change ex_rules n (proj2 (proj2 ex_rules_ok))) in H. cbn in I.
    destruct I as [<-|[<-|[<-|[<-|[]]]]]; vm_compute in H; try discriminate H; injection H as <-; is_accepted.
Qed.

(** * What is false *)
(** The blank line of a file of rules makes the program read before its buffer. *)
Theorem C97_blank_line_refuted : forall rs file, Forall writable_rule rs -> import_ascii (Some (flat_map rule_line rs ++ [LF])) file = Undefined.
Proof.
  intros rs file W. unfold import_ascii, IMP_readrule.
  assert (E : forall fuel, (length (flat_map rule_line rs ++ [LF]) <= fuel)%nat -> rule_lines fuel (flat_map rule_line rs ++ [LF]) = UB).
  { induction W as [|[p r] rs (Wp & Wr & L) _ IH]; intros fuel H; [destruct fuel; [cbn in H; lia|reflexivity]|].
    cbn [flat_map] in *. unfold rule_line in H at 1. unfold rule_line at 1. cbn [fst snd] in *. rewrite !app_length in H. cbn [length] in H.
    destruct fuel as [|fuel]; [lia|]. pose proof Wp as [Np _]. rewrite <- app_assoc.
    replace ((p ++ [chr 32] ++ r ++ [chr 10]) ++ flat_map rule_line rs ++ [LF]) with ((p ++ [chr 32] ++ r) ++ chr 10 :: flat_map rule_line rs ++ [LF]) by (rewrite <- !app_assoc; reflexivity).
    rewrite rule_lines_S by (destruct p; [congruence|discriminate]).
    rewrite fgets_line; [|apply Forall_app; split; [apply word_plain, Wp|constructor; [discriminate|apply word_plain, Wr]]|rewrite !app_length; cbn [length] in *; lia].
    replace ((p ++ [chr 32] ++ r) ++ [chr 10]) with (p ++ [SP] ++ r ++ [LF]) by (rewrite <- !app_assoc; reflexivity).
    rewrite strip_line by assumption. cbn [rbind]. rewrite IH by (rewrite app_length; cbn [length]; lia). reflexivity. }
  rewrite E by lia. reflexivity.
Qed.
Print Assumptions C97_blank_line_refuted.
Example C97_blank_line_ex : flat_map rule_line ex_rules ++ [LF] = S2L "B* --NEW_+++" ++ LF :: S2L "A? X+" ++ LF :: S2L "a* X+++" ++ [LF; LF].
Proof. reflexivity. Qed.
(** A file that does not begin with the sample ends the program, whatever follows. *)
Theorem C97_no_sample_refuted : forall rest, import_ascii None (S2L "A 1 2 3" ++ LF :: rest) = Undefined.
Proof.
  intros rest. unfold import_ascii. change (IMP_readrule None) with (Ok default_rules). cbn [of_res ibind].
  reflexivity.
Qed.
Print Assumptions C97_no_sample_refuted.
(** The other formats give their values one by one: no variable is made. *)
Theorem C97_one_by_one_refuted : forall rs nb l, sane rs -> import_rotated rs nb l = Ok [].
Proof.
  intros rs nb l S. unfold import_rotated. induction l as [|[[n t] x] l IH]; [reflexivity|]. cbn [import_values].
  replace (import_value d_na nb rs [] n t x) with (@Ok (smap (list dbl)) []); [exact IH|]. unfold import_value.
  destruct ((t <? 0) || (nb <? t))%bool; [reflexivity|]. destruct (change_spec rs n S) as [(m & E & _)|[E _]]; rewrite E; reflexivity.
Qed.
Print Assumptions C97_one_by_one_refuted.
Example C97_one_by_one_ex : sane default_rules /\ IMP_change default_rules (S2L "A") = Ok (Some (S2L "A")) /\
  import_rotated default_rules 3 [(S2L "A", 0, d_ofZ 1); (S2L "A", 1, d_ofZ 2)] = Ok [].
Proof. split; [constructor; [vm_compute; repeat split|constructor]|]. vm_compute. split; reflexivity. Qed.
(** One new name that is refused, and nothing is imported: an exception leaves the function. *)
Theorem C97_refused_refuted : exists rs db, rs <> [] /\ Forall writable_rule rs /\ sane rs /\ database VARIABLES db /\ no_sharp db /\ good_values smp3 db /\
  In (S2L "A") (map fst db) /\ new_name rs (S2L "A") (S2L "A") /\ import_ascii (Some (flat_map rule_line rs)) (save_vars smp3 db) = Thrown.
Proof.
  set (rs := [(S2L "A", S2L "+"); (S2L "*", S2L "-+++")]). assert (SR : sane rs) by (repeat (constructor; [vm_compute; repeat split|]); constructor).
  exists rs, [(S2L "A", [d_na; d_na; d_na]); (S2L "B1", [d_na; d_na; d_na])].
  split; [discriminate|]. split; [repeat (constructor; [split; [is_word|split; [is_word|cbn; lia]]|]); constructor|]. split; [exact SR|].
  split; [is_database|]. split; [is_no_sharp|]. split; [repeat (constructor; [split; [reflexivity|]; repeat (constructor; [left; reflexivity|]); constructor|]); constructor|].
  split; [is_in|]. split; [apply (C97_change rs _ SR); vm_compute; reflexivity|]. vm_compute. reflexivity.
Qed.
Print Assumptions C97_refused_refuted.
(** Two names that become one: a variable is lost without a message. *)
Theorem C97_collision_refuted : exists rs db, rs <> [] /\ Forall writable_rule rs /\ sane rs /\ database VARIABLES db /\ no_sharp db /\ good_values smp3 db /\
  length db = 2%nat /\ (forall n, In n (map fst db) -> ~ no_rule rs n) /\
  exists k v, import_ascii (Some (flat_map rule_line rs)) (save_vars smp3 db) = Done (mkVdb (Some smp3) [(k, v)]).
Proof.
  set (rs := [(S2L "*", S2L "+")]). assert (SR : sane rs) by (repeat (constructor; [vm_compute; repeat split|]); constructor).
  exists rs, [(S2L "A1", [d_na; d_na; d_na]); (S2L "A2", [d_na; d_na; d_na])].
  split; [discriminate|]. split; [repeat (constructor; [split; [is_word|split; [is_word|cbn; lia]]|]); constructor|]. split; [exact SR|].
  split; [is_database|]. split; [is_no_sharp|]. split; [repeat (constructor; [split; [reflexivity|]; repeat (constructor; [left; reflexivity|]); constructor|]); constructor|].
  split; [reflexivity|]. split.
  - intros n I. apply (new_name_not_none rs n (S2L "A")). apply (C97_change rs _ SR). cbn in I. destruct I as [<-|[<-|[]]]; vm_compute; reflexivity.
  - eexists. eexists. vm_compute. reflexivity.
Qed.
Print Assumptions C97_collision_refuted.
