(** Property C107: the import of comments from an ASCII file. *)
From Coq Require Import ZArith Ascii String List Bool Lia Sorted.
From Verif Require Import M_Base M_Report M_Time M_Names M_Lex M_Double M_Decimal M_Kdb M_Grep M_Ascii M_Import M_ImportCmt
  S_Names S_Grep S_Ascii S_Import S_ImportCmt L_Time L_Names L_Kdb L_Decimal L_Ascii L_Ascii2 L_Ascii3 L_Import T_Ascii T_Import L_ImportCmt.
Import ListNotations.
Open Scope Z_scope.

Lemma default_named (db : list (str * str)) : database COMMENTS db -> Forall2 (named default_rules) (map Some (map fst db)) (map fst db).
Proof.
  intros [_ A]. induction A as [|n l An _ IH]; cbn [map]; constructor; [|exact IH]. split; [|exact An]. apply default_change.
  destruct An as (c & u & _ & L & _). exact L.
Qed.
Lemma default_puts (db : list (str * str)) : database COMMENTS db ->
  puts_some (combine (map Some (map fst db)) (map (fun x => taken (snd x)) db)) [] = map (fun x => (fst x, taken (snd x))) db.
Proof.
  intros [Srt _]. assert (E : forall acc, puts_some (combine (map Some (map fst db)) (map (fun x => taken (snd x)) db)) acc = puts (map (fun x => (fst x, taken (snd x))) db) acc).
  { clear. induction db as [|[n v] db IH]; intros acc; [reflexivity|]. exact (IH (M_Kdb.put n (taken v) acc)). }
  rewrite E, puts_sorted; [reflexivity|]. cbn [keys map app]. rewrite map_map. exact Srt.
Qed.
Lemma values_taken (db : list (str * str)) : Forall plain (map snd db) -> Forall2 imported (map snd db) (map snd (map (fun x => (fst x, taken (snd x))) db)).
Proof. intros P. rewrite map_map. cbn [snd]. induction db as [|[n v] db IH]; cbn [map snd] in *; [constructor|]. inversion P; subst. constructor; [apply taken_imported; assumption|apply IH; assumption]. Qed.

(** Full statement: the comments of a file are imported without loss. It is false (see the last theorems). Without rules, the comments
    of a file that the program has written are all imported, under their names, each on one line and without its last blanks. *)
Theorem C107_default_partial : forall db, database COMMENTS db -> no_sharp db -> Forall plain (map snd db) ->
  exists db', import_cmt None (save_comments db) = Done db' /\ map fst db' = map fst db /\ Forall2 imported (map snd db) (map snd db').
Proof.
  intros db D N P. exists (map (fun x => (fst x, taken (snd x))) db). split; [|split; [rewrite map_map; reflexivity|apply values_taken, P]].
  destruct (import_tail None default_rules db _ [] eq_refl D N P (default_named db D) ltac:(constructor)) as (fuel & a & t & w & B & E). rewrite app_nil_r in E. rewrite E, app_nil_r.
  rewrite loop_stop; [f_equal; apply default_puts, D|]. eexists _, _. split; [apply lex_eof, B|reflexivity].
Qed.
Print Assumptions C107_default_partial.
(** A comment on one line that does not end with a blank comes back as it is; loaded instead, it is cut into lines of sixty characters
    (C66). *)
Theorem C107_same : forall db, database COMMENTS db -> no_sharp db ->
  Forall (fun t => plain t /\ ~ In (chr 10) t /\ forall a, t <> a ++ [chr 32]) (map snd db) ->
  import_cmt None (save_comments db) = Done db.
Proof.
  intros db D N P. destruct (C107_default_partial db D N) as (db' & E & K & V).
  { eapply Forall_impl; [|exact P]. intros t (X & _). exact X. }
  rewrite E. f_equal. clear E D N. revert db' K V. induction db as [|[n v] db IH]; intros [|[n' v'] db'] K V; cbn [map fst snd] in *; try discriminate; [reflexivity|].
  injection K as -> K. inversion V as [|? ? ? ? (k & I & L) V']; subst. inversion P as [|? ? (_ & NL & NB) P']; subst. f_equal; [f_equal|apply IH; assumption].
  assert (Q : v = v' ++ repeat (chr 32) k).
  { clear -I NL. revert NL. induction I as [|x y l l' S _ IH]; intros NL; [reflexivity|]. destruct S as [|c C]; [exfalso; apply NL; left; reflexivity|].
    f_equal. apply IH. intros H. apply NL. right. exact H. }
  destruct k as [|k]; [rewrite app_nil_r in Q; congruence|]. exfalso. apply (NB (v' ++ repeat (chr 32) k)). rewrite Q, <- app_assoc. f_equal.
  clear. induction k as [|k IH]; [reflexivity|]. cbn [repeat app] in *. f_equal. exact IH.
Qed.
Print Assumptions C107_same.
Definition ex_cmts : list (str * str) := [(S2L "A", long_comment); (S2L "B_1", S2L "with a ""quote"" and a \"); (S2L "C", [])].
Example C107_same_ex : database COMMENTS ex_cmts /\ no_sharp ex_cmts /\
  Forall (fun t => plain t /\ ~ In (chr 10) t /\ forall a, t <> a ++ [chr 32]) (map snd ex_cmts) /\ load_comments (save_comments ex_cmts) <> Done (true, ex_cmts).
Proof.
  assert (X : forall t x, x <> chr 32 -> forall a, t ++ [x] <> a ++ [chr 32]) by (intros t x H a E; apply app_inj_tail in E as [_ E]; exact (H E)).
  split; [is_database|]. split; [is_no_sharp|]. split; [|vm_compute; discriminate].
  cbn [ex_cmts map snd]. constructor; [split; [is_plain|split; [not_in|]]|constructor; [split; [is_plain|split; [not_in|]]|constructor; [split; [is_plain|split; [not_in|intros [|? ?]; discriminate]]|constructor]]].
  - replace long_comment with (removelast long_comment ++ [chr 115]) by (vm_compute; reflexivity). apply X. discriminate.
  - match goal with |- forall a, ?t <> _ => replace t with (removelast t ++ [chr 92]) by (vm_compute; reflexivity) end. apply X. discriminate.
Qed.
Example C107_default_ex : import_cmt None (save_comments [(S2L "A", S2L "one" ++ LF :: S2L "two  " ++ [LF])]) = Done [(S2L "A", S2L "one two")].
Proof. vm_compute. reflexivity. Qed.

Lemma named_exist rs (S : sane rs) : forall l : list (str * str), (forall n m, In n (map fst l) -> new_name rs n m -> accepted COMMENTS m) ->
  exists news, Forall2 (named rs) news (map fst l).
Proof.
  induction l as [|[n v] l IH]; intros H; cbn [map fst] in *; [exists []; constructor|].
  destruct IH as [news F]; [intros k m I; apply H; right; exact I|].
  destruct (change_spec rs n S) as [(m & E & N)|[E N]].
  - exists (Some m :: news). constructor; [split; [exact E|exact (H n m (or_introl eq_refl) N)]|exact F].
  - exists (None :: news). constructor; [split; [exact E|exact I]|exact F].
Qed.
Lemma last_named rs (S : sane rs) k : forall (l : list (str * str)) news, Forall2 (named rs) news (map fst l) ->
  match last_for k (combine news (map (fun x => taken (snd x)) l)) with
  | Some u => exists a n t b, l = a ++ (n, t) :: b /\ u = taken t /\ new_name rs n k /\ (forall n' v', In (n', v') b -> ~ new_name rs n' k)
  | None => forall n v, In (n, v) l -> ~ new_name rs n k
  end.
Proof.
  induction l as [|[n v] l IH]; intros news F; cbn [map fst snd] in *; inversion F as [|o ? news' ? [Ch _] F']; subst; cbn [combine last_for].
  - intros n v [].
  - specialize (IH _ F'). destruct (last_for k (combine news' (map (fun x => taken (snd x)) l))) as [w|].
    + destruct IH as (a & m & t & b & -> & U & N & L). exists ((n, v) :: a), m, t, b. split; [reflexivity|]. split; [exact U|]. split; [exact N|exact L].
    + pose proof (C97_change rs n S) as [CS CN]. destruct o as [m|].
      * apply CS in Ch. destruct (str_eqb m k) eqn:E.
        -- apply str_eqb_iff in E. subst m. exists [], n, v, l. split; [reflexivity|]. split; [reflexivity|]. split; [exact Ch|exact IH].
        -- intros n' v' [X|X]; [|exact (IH n' v' X)]. injection X as <- <-. intros Y. rewrite (new_name_fun _ _ _ Ch _ Y) in E. rewrite str_eqb_refl in E. discriminate E.
      * apply CN in Ch. intros n' v' [X|X]; [|exact (IH n' v' X)]. injection X as <- <-. intros Y. exact (new_name_not_none _ _ _ Y Ch).
Qed.
(** With rules: a name holds the text of the last comment of the file that a rule gives this name; the comments that no rule matches are
    left out. *)
Theorem C107_rules_partial : forall rs db, rs <> [] -> Forall writable_rule rs -> sane rs ->
  database COMMENTS db -> no_sharp db -> Forall plain (map snd db) ->
  (forall n m, In n (map fst db) -> new_name rs n m -> accepted COMMENTS m) ->
  exists db', import_cmt (Some (flat_map rule_line rs)) (save_comments db) = Done db' /\ sorted db' /\
    (forall k u, M_Kdb.find k db' = Some u ->
      exists a n t b, db = a ++ (n, t) :: b /\ imported t u /\ new_name rs n k /\ (forall n' t', In (n', t') b -> ~ new_name rs n' k)) /\
    (forall k, M_Kdb.find k db' = None -> forall n, In n (map fst db) -> ~ new_name rs n k).
Proof.
  intros rs db NE W S D N P A. destruct (named_exist rs S db A) as [news F]. eexists. split; [|split; [|split]].
  - destruct (import_tail _ rs db news [] (C97_rules_partial rs NE W) D N P F ltac:(constructor)) as (fuel & a & t & w & B & E). rewrite app_nil_r in E. rewrite E, app_nil_r.
    apply loop_stop. eexists _, _. split; [apply lex_eof, B|reflexivity].
  - apply sorted_puts_some. constructor.
  - intros k u H. rewrite find_puts_some in H. pose proof (last_named rs S k db news F) as L. destruct (last_for k _) as [w|]; [|discriminate H]. injection H as <-.
    destruct L as (a & n & t & b & E & -> & Nn & L). exists a, n, t, b. split; [exact E|]. split; [|split; [exact Nn|exact L]].
    apply taken_imported. rewrite Forall_forall in P. apply P. rewrite E, map_app. apply in_or_app. right. left. reflexivity.
  - intros k H n I. rewrite find_puts_some in H. pose proof (last_named rs S k db news F) as L. destruct (last_for k _) as [w|]; [discriminate H|].
    apply in_map_iff in I as ([n' t] & <- & I). exact (L n' t I).
Qed.
Print Assumptions C107_rules_partial.
Definition ex_cmts2 : list (str * str) := [(S2L "AB", S2L "one"); (S2L "AC", S2L "two"); (S2L "B_1", S2L "three"); (S2L "CD", S2L "four")].
Example C107_rules_ex : database COMMENTS ex_cmts2 /\ no_sharp ex_cmts2 /\ Forall plain (map snd ex_cmts2) /\
  (forall n m, In n (map fst ex_cmts2) -> new_name ex_rules n m -> accepted COMMENTS m) /\
  import_cmt (Some (flat_map rule_line ex_rules)) (save_comments ex_cmts2) = Done [(S2L "NEW_1", S2L "three"); (S2L "XA", S2L "two")].
Proof.
  split; [is_database|]. split; [is_no_sharp|]. split; [cbn [ex_cmts2 map snd]; repeat (apply Forall_cons; [is_plain|]); apply Forall_nil|]. split; [|vm_compute; reflexivity].
  intros n m I H. apply (C97_change ex_rules n (proj2 (proj2 ex_rules_ok))) in H. cbn in I.
  destruct I as [<-|[<-|[<-|[<-|[]]]]]; vm_compute in H; try discriminate H; injection H as <-; is_accepted.
Qed.

(** * What is false *)
(** After a number in the place of a name, the rest of the file is lost, whatever it holds, and the import succeeds: the comments before
    the number are imported as if the file ended there. *)
Theorem C107_number_refuted : forall db d rest, database COMMENTS db -> no_sharp db -> Forall plain (map snd db) ->
  digits d -> d <> [] -> (length d <= 60)%nat -> printable rest ->
  import_cmt None (save_comments db ++ d ++ SP :: rest) = import_cmt None (save_comments db) /\ exists db', import_cmt None (save_comments db) = Done db'.
Proof.
  intros db d rest D N P Dg NE L R. split; [|destruct (C107_default_partial db D N P) as (db' & E & _); exists db'; exact E].
  assert (PD : printable (d ++ SP :: rest)).
  { apply printable_app; [|constructor; [left; vm_compute; discriminate|exact R]]. unfold digits in Dg. eapply Forall_impl; [|exact Dg]. intros c H. unfold isdigit in H. left. lia. }
  destruct (import_tail None default_rules db _ (d ++ SP :: rest) eq_refl D N P (default_named db D) PD) as (fuel & a & t & w & B & ->).
  destruct (import_tail None default_rules db _ [] eq_refl D N P (default_named db D) ltac:(constructor)) as (fuel' & a' & t' & w' & B' & E). rewrite app_nil_r in E. rewrite E, app_nil_r.
  rewrite (loop_stop default_rules fuel'); [|eexists _, _; split; [apply lex_eof, B'|reflexivity]].
  apply loop_stop. eexists _, _. split.
  - pose proof (lex_number [] a (mkNT d [] None) (SP :: rest) t w B) as X. cbn in X. rewrite ?app_nil_r in X. apply X; [split; [exact Dg|split; [exact NE|split; [constructor|exact I]]]|exact L|].
    intros c u E'. injection E' as <- <-. repeat split; vm_compute; discriminate.
  - cbn. match goal with |- context [if ?b then _ else _] => destruct b end; reflexivity.
Qed.
Print Assumptions C107_number_refuted.
Example C107_number_ex : import_cmt None (save_comments ex_cmts2 ++ S2L "12" ++ SP :: save_comments [(S2L "Z", S2L "lost")]) = Done ex_cmts2 /\
  load_comments (save_comments ex_cmts2 ++ S2L "12" ++ SP :: save_comments [(S2L "Z", S2L "lost")]) = Done (true, ex_cmts2 ++ [(S2L "Z", S2L "lost")]).
Proof. split; vm_compute; reflexivity. Qed.
(** So does a number in the place of a text: the comments after it are lost. *)
Theorem C107_number_text_refuted : exists db tail, database COMMENTS db /\ database COMMENTS tail /\ tail <> [] /\
  import_cmt None (save_comments db ++ S2L "D 12 " ++ save_comments tail) = Done db.
Proof.
  exists ex_cmts2, [(S2L "Z", S2L "lost")]. split; [is_database|]. split; [is_database|]. split; [discriminate|]. vm_compute. reflexivity.
Qed.
Print Assumptions C107_number_text_refuted.
(** The same wrong name silently ends the import when it is a word of its own, and makes the whole import fail between quotes. *)
Theorem C107_refused_name_refuted : exists db, database COMMENTS db /\
  import_cmt None (save_comments db ++ S2L "1A ""text""") = Done db /\ import_cmt None (save_comments db ++ S2L """1A"" ""text""") = Thrown.
Proof. exists ex_cmts2. split; [is_database|]. split; vm_compute; reflexivity. Qed.
Print Assumptions C107_refused_name_refuted.
