(** Lemmas: the expansion of arguments. *)
From Coq Require Import ZArith Ascii String List Bool Lia ZifyBool.
From Verif Require Import M_Base M_Time M_Names M_Lex M_Kdb M_Report S_Report S_Names L_Names L_Kdb L_Time L_Report2 L_Report4 L_Report5 M_Lists S_Lists.
Import ListNotations.
Open Scope Z_scope.

Lemma sep_mem c : mem A_SEPS c = sep c.
Proof. unfold mem, A_SEPS, sep, among, BLANK. cbn [existsb]. rewrite !eqb_code by lia. destruct (code c =? 32), (code c =? 44), (code c =? 59), (code c =? 10), (code c =? 9), (code c =? 13); reflexivity. Qed.
Lemma quote_without c : Ascii.eqb c QUOTE = among c [34].
Proof. unfold QUOTE, among. rewrite eqb_code by lia. cbn. rewrite orb_false_r. reflexivity. Qed.
Definition short (l : list str) : bool := forallb (fun w => Nat.leb (length w) 128) l.

Lemma tokens_first p s : forall w, w <> [] -> exists u r, tokens p s w = (w ++ u) :: r.
Proof.
  induction s as [|c s IH]; intros w N; cbn [tokens].
  - destruct w; [congruence|]. exists [], []. cbn [nonempty]. rewrite app_nil_r. reflexivity.
  - destruct (p c).
    + destruct w; [congruence|]. exists [], (tokens p s []). cbn [nonempty]. rewrite app_nil_r. reflexivity.
    + destruct (IH (w ++ [c])) as (u & r & ->); [destruct w; discriminate|]. exists (c :: u), r. rewrite <- app_assoc. reflexivity.
Qed.
Lemma first_short p s w : w <> [] -> short (tokens p s w) = true -> (length w <= 128)%nat.
Proof. intros N H. destruct (tokens_first p s w N) as (u & r & E). rewrite E in H. cbn [short forallb] in H. apply andb_true_iff in H as [H _]. apply Nat.leb_le in H. rewrite app_length in H. lia. Qed.
Lemma aread_items s : forall w, without [34] s = true -> short (tokens sep s w) = true -> aread s w false = tokens sep s w.
Proof.
  induction s as [|c s IH]; intros w Q H; cbn [aread tokens]; [destruct w; reflexivity|].
  cbn [without forallb] in Q. apply andb_true_iff in Q as [Qc Q]. apply negb_true_iff in Qc. rewrite <- quote_without in Qc.
  cbn [negb andb tokens] in *. rewrite sep_mem. destruct (sep c) eqn:Sc.
  - destruct w; cbn [nonempty] in *; [apply IH; assumption|]. cbn [short forallb] in H. apply andb_true_iff in H as [_ H]. f_equal. apply IH; assumption.
  - pose proof (first_short sep s (w ++ [c]) ltac:(destruct w; discriminate) H) as L. rewrite app_length in L. cbn [length] in L.
    replace (Nat.ltb (length w) A_MAX_ARG) with true by (unfold A_MAX_ARG; lia). rewrite Qc. apply IH; assumption.
Qed.
Lemma a_read_items s : forall w x r, without [34] s = true -> short (tokens sep s w) = true -> tokens sep s w = x :: r ->
  exists rest, a_read s w false = Some (x, rest) /\ tokens sep rest [] = r /\ without [34] rest = true /\ (length rest < length s + length w)%nat.
Proof.
  induction s as [|c s IH]; intros w x r Q H E; cbn [a_read tokens] in *.
  - destruct w as [|d w]; [discriminate|]. cbn [nonempty] in E. injection E as <- <-. exists []. cbn. repeat split; lia.
  - cbn [without forallb] in Q. apply andb_true_iff in Q as [Qc Q]. apply negb_true_iff in Qc. rewrite <- quote_without in Qc.
    cbn [negb andb] in *. rewrite sep_mem. destruct (sep c) eqn:Sc.
    + destruct w as [|d w]; cbn [nonempty] in *.
      * destruct (IH [] x r Q H E) as (rest & A & B & C & D). exists rest. repeat split; try assumption. cbn [length] in *. lia.
      * injection E as <- <-. exists s. repeat split; try assumption. cbn [length]. lia.
    + pose proof (first_short sep s (w ++ [c]) ltac:(destruct w; discriminate) H) as L. rewrite app_length in L. cbn [length] in L.
      replace (Nat.ltb (length w) A_MAX_ARG) with true by (unfold A_MAX_ARG; lia). rewrite Qc.
      destruct (IH (w ++ [c]) x r Q H E) as (rest & A & B & C & D). exists rest. repeat split; try assumption. rewrite app_length in D. cbn [length] in *. lia.
Qed.

Lemma word_parts w : word w = true -> clean sep w = true /\ without [34] w = true /\ (length w <= 128)%nat.
Proof. unfold word, clean. rewrite !andb_true_iff. intros [[[A B] C] D]. apply Nat.leb_le in D. repeat split; assumption. Qed.
Lemma element_word w : element w = true -> word w = true.
Proof. unfold element. rewrite andb_true_iff. tauto. Qed.
Lemma element_expands w : element w = true -> expands w = false.
Proof. unfold element. rewrite andb_true_iff. intros [_ H]. destruct w as [|c w]; [reflexivity|]. cbn in H. unfold expands, is. lia. Qed.
Lemma items_word w : word w = true -> items w = [w].
Proof. intros H. apply tokens_one, word_parts, H. Qed.
Lemma flat_short ws n l r : flat ws n l r -> short l = true.
Proof.
  induction 1 as [n|n w l r E F IH|n x t a l r W L Q F IH G IH']; [reflexivity| |]; cbn [short forallb]; apply andb_true_iff; split; try assumption; apply Nat.leb_le.
  - apply word_parts, element_word, E.
  - apply word_parts, W.
Qed.
Lemma flat_one ws n w l r : flat ws n (w :: l) r -> exists a b, r = a ++ b /\ flat ws n [w] a /\ flat ws n l b /\ word w = true.
Proof.
  intros H. inversion H; subst.
  - exists [w], r0. repeat split; [constructor; [assumption|constructor]|assumption|apply element_word; assumption].
  - exists a, r0. repeat split; try assumption. rewrite <- (app_nil_r a). econstructor; try eassumption. constructor.
Qed.
Lemma flat_plain ws n w a : flat ws n [w] a -> expands w = false -> a = [w].
Proof. intros H E. inversion H; subst; [inversion H5; reflexivity|]. discriminate E. Qed.
Lemma gather_cons x l : gather (x :: l) = (fst x ++ fst (gather l), snd x || snd (gather l)).
Proof. reflexivity. Qed.
Lemma tokens_sublen p s : forall w x, In x (tokens p s w) -> (length x <= length w + length s)%nat.
Proof.
  induction s as [|c s IH]; intros w x H; cbn [tokens length] in *.
  - destruct w; cbn [nonempty] in H; [contradiction|]. destruct H as [<-|[]]. lia.
  - destruct (p c).
    + destruct w; cbn [nonempty] in H; [apply IH in H; cbn [length] in *; lia|]. destruct H as [<-|H]; [lia|]. apply IH in H. cbn [length] in *. lia.
    + apply IH in H. rewrite app_length in H. cbn [length] in H. lia.
Qed.
(** A word that starts a reference, in a text that does not start with it, is shorter than the text. *)
Lemma item_shorter t x : expands t = false -> expands x = true -> In x (items t) -> (length x < length t)%nat.
Proof.
  intros E X H. destruct t as [|c t]; [contradiction|]. unfold items in H. cbn [tokens] in H. destruct (sep c) eqn:S.
  - cbn [nonempty] in H. apply tokens_sublen in H. cbn [length] in *. lia.
  - cbn [app] in H. destruct (tokens_first sep t [c] ltac:(discriminate)) as (u & r & Et). rewrite Et in H. destruct H as [<-|H].
    + cbn [app expands] in *. congruence.
    + assert (K : forall s w v y r, tokens sep s w = v :: r -> In y r -> (length v + length y <= length w + length s)%nat).
      { clear. induction s as [|d s IH]; intros w v y r E H; cbn [tokens length] in *.
        - destruct w; cbn [nonempty] in E; [discriminate|]. injection E as <- <-. contradiction.
        - destruct (sep d).
          + destruct w; cbn [nonempty] in E; [pose proof (IH _ _ _ _ E H); cbn [length] in *; lia|]. injection E as <- <-. apply tokens_sublen in H. cbn [length] in *. lia.
          + pose proof (IH _ _ _ _ E H) as Q. rewrite app_length in Q. cbn [length] in Q. lia. }
      pose proof (K _ _ _ _ _ Et H) as Q. cbn [app length] in *. lia.
Qed.

Section Expansion.
Variable files : str -> option str.
Variable ws : lists.
Lemma a_add_eq left n arg : a_add files ws left (S n) arg =
  let finish (t : str) := gather (map (fun w => if expands w then a_add files ws left n w else ([w], false)) (aread t [] false)) in
  if expands arg then
    match left with
    | O => ([], false)
    | S left' =>
      match a_read arg [] false with
      | None => ([], false)
      | Some (word, rest) =>
        match content files ws word with
        | None => match word with c :: _ => if is 64 c then ([], false) else ([word], true) | [] => ([], false) end
        | Some t => gather (map (fun w => a_add files ws left' (S (length w)) w) (aread t [] false) ++ [finish rest])
        end
      end
    end
  else finish arg.
Proof. destruct left; reflexivity. Qed.
Lemma gather_app a b : gather (a ++ b) = (fst (gather a) ++ fst (gather b), snd (gather a) || snd (gather b)).
Proof. unfold gather. rewrite map_app, concat_app, existsb_app. reflexivity. Qed.
Lemma a_add_flat : forall left n arg l, (length arg < n)%nat -> without [34] arg = true -> flat ws left (items arg) l -> a_add files ws left n arg = (l, false).
Proof.
  induction left as [left IHl] using (well_founded_induction Wf_nat.lt_wf).
  induction n as [|n IHn]; intros arg l L Q F; [lia|].
  (* what is added by the words of a text *)
  assert (Fin : forall t r, without [34] t = true -> flat ws left (items t) r -> (forall x, In x (items t) -> expands x = true -> (length x < n)%nat) ->
    gather (map (fun w => if expands w then a_add files ws left n w else ([w], false)) (aread t [] false)) = (r, false)).
  { intros t r Qt Ft Sh. rewrite aread_items by (try assumption; exact (flat_short _ _ _ _ Ft)). fold (items t). revert r Ft Sh. generalize (items t) as its.
    induction its as [|w its IH]; intros r Ft Sh; [inversion Ft; reflexivity|]. apply flat_one in Ft as (a & b & -> & Fa & Fb & W).
    cbn [map]. rewrite gather_cons. rewrite (IH b Fb) by (intros x Hx; apply Sh; right; exact Hx). cbn [fst snd]. destruct (expands w) eqn:Ew.
    - rewrite (IHn w a).
      + reflexivity.
      + apply Sh; [left; reflexivity|exact Ew].
      + apply word_parts, W.
      + rewrite items_word by exact W. exact Fa.
    - rewrite (flat_plain _ _ _ _ Fa Ew). reflexivity. }
  destruct (expands arg) eqn:E.
  - assert (H : exists c r, arg = c :: r /\ sep c = false /\ (is 64 c || is 36 c) = true).
    { destruct arg as [|c r]; [discriminate|]. exists c, r. repeat split; [|exact E]. cbn in E. unfold is in E. unfold sep, among. cbn. lia. }
    destruct H as (c & r & -> & Sc & Ec).
    assert (I : exists x y, items (c :: r) = (c :: x) :: y). { unfold items. cbn [tokens]. rewrite Sc. cbn [app]. destruct (tokens_first sep r [c] ltac:(discriminate)) as (u & v & ->). exists u, v. reflexivity. }
    destruct I as (x & y & I). pose proof (flat_short _ _ _ _ F) as Sh.
    destruct (a_read_items (c :: r) [] _ _ Q Sh I) as (rest & R1 & R2 & R3 & R4). fold (items rest) in R2.
    rewrite I in F. inversion F as [|? ? ? ? El _|m x' t a l0 b W Lx Qt Fa Fb]; subst; [apply element_expands in El; cbn [expands] in El; congruence|].
    rewrite a_add_eq, E, R1. cbn [content]. replace (is 64 (chr 36)) with false by reflexivity. rewrite Lx.
    assert (G : forall its a, flat ws m its a -> gather (map (fun w => a_add files ws m (S (length w)) w) its) = (a, false)).
    { clear - IHl. induction its as [|w its IH]; intros a F; [inversion F; reflexivity|]. apply flat_one in F as (a1 & a2 & -> & F1 & F2 & Ww).
      cbn [map]. rewrite gather_cons, (IHl m ltac:(lia) (S (length w)) w a1); [|lia|apply word_parts, Ww|rewrite items_word by exact Ww; exact F1].
      rewrite (IH a2 F2). reflexivity. }
    rewrite (aread_items t) by (try assumption; exact (flat_short _ _ _ _ Fa)). fold (items t). rewrite gather_app, (G _ _ Fa), gather_cons.
    rewrite (Fin rest b R3); [cbn [fst snd gather concat existsb map orb]; rewrite app_nil_r; reflexivity|exact Fb|].
    intros z Hz _. apply tokens_sublen in Hz. cbn [length] in *. lia.
  - rewrite a_add_eq, E.
    apply Fin; [exact Q|exact F|]. intros z Hz Ez. pose proof (item_shorter arg z E Ez Hz). lia.
Qed.
Theorem stands_init t l : stands_for ws t l -> a_init files ws t = Some l.
Proof. intros [Q F]. unfold a_init, add_arg. rewrite (a_add_flat 10 (S (length t)) t l ltac:(lia) Q F). reflexivity. Qed.
End Expansion.

(** * Lists made by commands *)
Lemma list_name_chars n : list_name n -> exists c n', n = c :: n' /\ re_first LISTS (toupper c) = true /\ forallb (re_next LISTS) (to_upper n') = true /\ (length n <= 20)%nat.
Proof.
  unfold list_name, regex_match_name. destruct n as [|c n]; [discriminate|]. cbn [to_upper map]. rewrite !andb_true_iff. intros [[A B] C].
  exists c, n. repeat split; try assumption. unfold K_MAX_NAME in C. rewrite map_length in C. cbn [length]. lia.
Qed.
Lemma upper_next_chars c : re_next LISTS (toupper c) = true -> isspace c = false /\ sep c = false /\ among c [34; 12; 64; 36] = false.
Proof.
  unfold re_next, re_letter, toupper, isdigit, is_us, is_sharp, isspace, sep, among. pose proof (code_range c).
  destruct (islower c) eqn:E; [intros _; cbn [existsb]; unfold islower in E; lia|]. cbn [existsb]. unfold isupper, islower in *. lia.
Qed.
Lemma first_next c : re_first LISTS c = true -> re_next LISTS c = true.
Proof. unfold re_first, re_next. intros H. apply orb_true_iff in H as [->| ->]; rewrite ?orb_true_r; reflexivity. Qed.
Lemma list_name_all n : list_name n -> forallb (fun c => re_next LISTS (toupper c)) n = true.
Proof.
  intros H. apply list_name_chars in H as (c & n' & -> & A & B & _). cbn [forallb]. rewrite (first_next _ A). cbn [andb].
  unfold to_upper in B. clear A. induction n' as [|d n' IH]; [reflexivity|]. cbn [map forallb] in *. apply andb_true_iff in B as [-> B]. apply IH, B.
Qed.
Lemma trim_solid n : forallb (fun c => negb (isspace c)) n = true -> trim n = n.
Proof.
  intros H. apply (trimmed_unique n); [apply trim_trimmed|].
  assert (K : forall c, In c n -> ~ blank c). { intros c Hc. rewrite forallb_forall in H. apply nblank_iff. specialize (H c Hc). apply negb_true_iff in H. exact H. }
  exists [], []. rewrite app_nil_r. repeat split; try constructor; intros c u E; apply K; rewrite E; [left; reflexivity|]; try (apply in_or_app; right; left; reflexivity).
Qed.
Lemma list_name_key n : list_name n -> to_key UPPER_CASE n = to_upper n.
Proof.
  intros H. unfold to_key. rewrite trim_solid; [reflexivity|]. apply list_name_all in H. rewrite forallb_forall in *. intros c Hc. specialize (H c Hc).
  apply upper_next_chars in H as [-> _]. reflexivity.
Qed.
Lemma set_list_ok ws n t : list_name n -> set_list ws n t = Some (M_Kdb.put (to_upper n) t ws).
Proof.
  intros H. unfold set_list. rewrite list_name_key by exact H. pose proof H as R. unfold list_name in R.
  apply regex_iff in R. apply check_name_iff in R. rewrite R. reflexivity.
Qed.
Lemma list_of_name ws n : list_name n -> list_of ws n = M_Kdb.find (to_upper n) ws.
Proof. intros H. unfold list_of. rewrite list_name_key by exact H. reflexivity. Qed.

Lemma to_string_digits j : 0 <= j -> forallb isdigit (to_string j) = true.
Proof. intros H. unfold to_string. replace (j <? 0) with false by lia. pose proof (dec_nonneg_digits j H) as D. rewrite Forall_forall in D. apply forallb_forall. exact D. Qed.
Lemma digits_upper s : forallb isdigit s = true -> to_upper s = s.
Proof.
  induction s as [|c s IH]; intros H; [reflexivity|]. cbn [forallb] in H. apply andb_true_iff in H as [A B]. cbn [to_upper map]. fold (to_upper s). rewrite IH by exact B. f_equal.
  unfold toupper, islower, isdigit in *. replace ((97 <=? code c) && (code c <=? 122)) with false by lia. reflexivity.
Qed.
Lemma to_string_inj i j : 0 <= i -> 0 <= j -> to_string i = to_string j -> i = j.
Proof.
  intros A B. unfold to_string. replace (i <? 0) with false by lia. replace (j <? 0) with false by lia. intros E.
  destruct (dec_nonneg_read i 0 O [] A) as (k & _ & Hi & Lk & _). destruct (dec_nonneg_read j 0 O [] B) as (k' & _ & Hj & Lk' & _).
  rewrite E in Hi. rewrite Hi in Hj. cbn [read_digits] in Hj. injection Hj as Hj _. lia.
Qed.

Lemma sub_name_name name j : list_name name -> 0 <= j -> (length (sub_name name j) <= 20)%nat -> list_name (sub_name name j).
Proof.
  intros N J L. apply list_name_chars in N as (c & n & -> & A & B & _). unfold list_name, sub_name in *. cbn [app to_upper map regex_match_name].
  rewrite A. cbn [andb]. rewrite map_app, forallb_app. unfold to_upper in B. rewrite B. cbn [andb].
  fold (to_upper (to_string j)). rewrite digits_upper by (apply to_string_digits, J).
  apply andb_true_iff. split.
  - pose proof (to_string_digits j J) as D. rewrite forallb_forall in *. intros x Hx. unfold re_next. rewrite (D x Hx), orb_true_r. reflexivity.
  - rewrite app_length, map_length. cbn [app length] in L. rewrite app_length in L. unfold K_MAX_NAME. lia.
Qed.
Lemma sub_name_upper name j : 0 <= j -> to_upper (sub_name name j) = to_upper name ++ to_string j.
Proof. intros J. unfold sub_name, to_upper. rewrite map_app. f_equal. apply digits_upper, to_string_digits, J. Qed.
Lemma sub_name_inj name i j : 0 <= i -> 0 <= j -> to_upper (sub_name name i) = to_upper (sub_name name j) -> i = j.
Proof. intros A B. rewrite !sub_name_upper by assumption. intros E. apply app_inv_head in E. apply to_string_inj; assumption. Qed.
Lemma sub_name_other name j : 0 <= j -> to_upper (sub_name name j) <> to_upper name.
Proof.
  intros J E. rewrite sub_name_upper in E by exact J. rewrite <- (app_nil_r (to_upper name)) in E at 2. apply app_inv_head in E.
  unfold to_string in E. replace (j <? 0) with false in E by lia. destruct (dec_nonneg_cons j J) as (d & r & H & _). rewrite H in E. discriminate.
Qed.

Fixpoint chop (n chunk : nat) (l : list str) : list (list str) :=
  match n, l with
  | S n', _ :: _ => firstn chunk l :: chop n' chunk (skipn chunk l)
  | _, _ => []
  end.
Lemma chop_concat chunk : (1 <= chunk)%nat -> forall n l, (length l <= n)%nat -> concat (chop n chunk l) = l.
Proof.
  intros C. induction n as [|n IH]; intros l L; [destruct l; [reflexivity|cbn in L; lia]|]. destruct l as [|x l]; [reflexivity|].
  cbn [chop concat]. rewrite IH by (rewrite skipn_length; cbn [length] in *; lia). apply firstn_skipn.
Qed.
Lemma chop_count chunk : (1 <= chunk)%nat -> forall n l, (length (chop n chunk l) <= length l)%nat.
Proof.
  intros C. induction n as [|n IH]; intros l; [cbn; lia|]. destruct l as [|x l]; [cbn; lia|]. cbn [chop length].
  specialize (IH (skipn chunk (x :: l))). rewrite skipn_length in IH. cbn [length] in *. lia.
Qed.
Lemma chop_parts chunk (P : str -> bool) : forall n l, forallb P l = true -> forallb (forallb P) (chop n chunk l) = true.
Proof.
  induction n as [|n IH]; intros l H; [reflexivity|]. destruct l as [|x l]; [reflexivity|]. cbn [chop forallb].
  rewrite <- (firstn_skipn chunk (x :: l)), forallb_app in H. apply andb_true_iff in H as [-> H]. cbn [andb]. apply IH, H.
Qed.

Lemma sub_lists_chop name chunk : list_name name -> (1 <= chunk)%nat -> forall n ws j l, 0 <= j -> (length l <= n)%nat ->
  (forall i, j <= i < j + Z.of_nat (length l) -> (length (sub_name name i) <= 18)%nat) ->
  exists ws', sub_lists n ws name chunk j l = Ok (true, ws', j + Z.of_nat (length (chop n chunk l))) /\
    (forall i, (i < length (chop n chunk l))%nat -> M_Kdb.find (to_upper (sub_name name (j + Z.of_nat i))) ws' = Some (mtov (nth i (chop n chunk l) []) [chr 59])) /\
    (forall k, (forall i, j <= i < j + Z.of_nat (length (chop n chunk l)) -> k <> to_upper (sub_name name i)) -> M_Kdb.find k ws' = M_Kdb.find k ws).
Proof.
  intros N C. induction n as [|n IH]; intros ws j l J L S18.
  - exists ws. cbn [sub_lists chop length]. rewrite Z.add_0_r. repeat split; [intros i Hi; lia].
  - destruct l as [|x l]; [exists ws; cbn [sub_lists chop length]; rewrite Z.add_0_r; repeat split; intros i Hi; lia|].
    pose proof (S18 j ltac:(cbn [length]; lia)) as Lj.
    assert (Nj : list_name (sub_name name j)) by (apply sub_name_name; [exact N|exact J|lia]).
    cbn [sub_lists chop length]. replace (29 <? Z.of_nat (length (sub_name name j))) with false by lia.
    rewrite firstn_all2 by lia. rewrite set_list_ok by exact Nj.
    set (ws1 := M_Kdb.put _ _ ws). pose proof (chop_count chunk C n (skipn chunk (x :: l))) as Cc.
    destruct (IH ws1 (j + 1) (skipn chunk (x :: l))) as (ws' & E1 & E2 & E3); [lia|rewrite skipn_length; cbn [length] in *; lia| |].
    { intros i Hi. apply S18. rewrite skipn_length in Hi. cbn [length] in *. lia. }
    exists ws'. split; [|split].
    + rewrite E1. do 2 f_equal. lia.
    + intros i Hi. destruct i as [|i].
      * replace (j + Z.of_nat 0) with j by lia. cbn [nth]. rewrite E3.
        -- unfold ws1. apply find_put_eq.
        -- intros i Hi' E. apply sub_name_inj in E; lia.
      * cbn [nth]. replace (j + Z.of_nat (S i)) with (j + 1 + Z.of_nat i) by lia. apply E2. lia.
    + intros k Hk. rewrite E3.
      * unfold ws1. apply find_put_neq. apply Hk. lia.
      * intros i Hi. apply Hk. lia.
Qed.

Definition ref_word (name : str) (j : Z) : str := chr 36 :: sub_name name j.
Lemma main_text_refs name : forall n j, 0 <= j -> (forall i, j <= i < j + Z.of_nat n -> (length (sub_name name i) <= 18)%nat) ->
  main_text n name j = Ok (concat (map (fun i => ref_word name i ++ [chr 59]) (seqZ j n))).
Proof.
  induction n as [|n IH]; intros j J H; [reflexivity|]. cbn [main_text seqZ map concat].
  pose proof (H j ltac:(lia)) as Lj.
  replace (29 <? Z.of_nat (length (chr 36 :: sub_name name j ++ [chr 59]))) with false by (cbn [length]; rewrite app_length; cbn [length]; lia).
  rewrite IH by (try lia; intros i Hi; apply H; lia).
  unfold ref_word. rewrite firstn_all2 by (cbn [length]; rewrite app_length; cbn [length]; lia). reflexivity.
Qed.
Lemma ref_clean p name j : list_name name -> 0 <= j -> (forall c, re_next LISTS (toupper c) = true -> p c = false) -> p (chr 36) = false -> clean p (ref_word name j) = true.
Proof.
  intros N J P D. unfold clean, ref_word. cbn [nonempty forallb]. rewrite D. cbn [andb negb]. unfold sub_name. rewrite forallb_app.
  apply list_name_all in N. apply andb_true_iff. split; apply forallb_forall; intros c Hc; apply negb_true_iff, P.
  - rewrite forallb_forall in N. apply N, Hc.
  - pose proof (to_string_digits j J) as Dg. rewrite forallb_forall in Dg. specialize (Dg c Hc).
    unfold re_next, toupper, islower. assert (E : (97 <=? code c) && (code c <=? 122) = false) by (unfold isdigit in Dg; lia). rewrite E, Dg, orb_true_r. reflexivity.
Qed.
Lemma refs_tokens p name n : list_name name -> (forall c, re_next LISTS (toupper c) = true -> p c = false) -> p (chr 36) = false -> p (chr 59) = true ->
  forall j, 0 <= j -> tokens p (concat (map (fun i => ref_word name i ++ [chr 59]) (seqZ j n))) [] = map (ref_word name) (seqZ j n).
Proof.
  intros N P D S. induction n as [|n IH]; intros j J; [reflexivity|]. cbn [seqZ map concat].
  rewrite <- app_assoc. cbn [app]. rewrite tokens_app by exact S. rewrite tokens_one by (apply ref_clean; assumption). cbn [app]. f_equal. apply IH. lia.
Qed.
Lemma sep_next c : re_next LISTS (toupper c) = true -> sep c = false.
Proof. intros H. apply upper_next_chars in H. tauto. Qed.
Lemma ref_word_word name j : list_name name -> 0 <= j -> (length (sub_name name j) <= 18)%nat -> word (ref_word name j) = true.
Proof.
  intros N J L. unfold word. rewrite !andb_true_iff. pose proof (ref_clean sep name j N J sep_next eq_refl) as C. unfold clean in C. apply andb_true_iff in C as [C1 C2].
  repeat split; [exact C2| |apply Nat.leb_le; cbn [ref_word length]; lia].
  pose proof (ref_clean (fun c => among c [34]) name j N J) as Q. unfold clean in Q. rewrite andb_true_iff in Q. apply Q; [|reflexivity].
  intros c Hc. apply upper_next_chars in Hc as (_ & _ & Hc). unfold among in *. cbn [existsb] in *. lia.
Qed.
Lemma mtov_items l : forallb element l = true -> items (mtov l [chr 59]) = l /\ without [34] (mtov l [chr 59]) = true.
Proof.
  intros H. rewrite mtov_joined. split.
  - apply tokens_back; [reflexivity|]. rewrite forallb_forall in *. intros w Hw. apply word_parts, element_word, H, Hw.
  - apply joined_all; [reflexivity|]. rewrite forallb_forall in *. intros w Hw. apply word_parts, element_word, H, Hw.
Qed.
Lemma flat_elements ws n l : forallb element l = true -> flat ws n l l.
Proof. induction l as [|w l IH]; intros H; [constructor|]. cbn [forallb] in H. apply andb_true_iff in H as [A B]. constructor; [exact A|apply IH, B]. Qed.
Lemma flat_refs ws m name : list_name name -> forall parts j, 0 <= j ->
  (forall i, j <= i < j + Z.of_nat (length parts) -> (length (sub_name name i) <= 18)%nat) ->
  (forall i, (i < length parts)%nat -> M_Kdb.find (to_upper (sub_name name (j + Z.of_nat i))) ws = Some (mtov (nth i parts []) [chr 59])) ->
  forallb (forallb element) parts = true ->
  flat ws (S m) (map (ref_word name) (seqZ j (length parts))) (concat parts).
Proof.
  intros N. induction parts as [|p parts IH]; intros j J S18 F E; [constructor|]. cbn [length seqZ map concat].
  cbn [forallb] in E. apply andb_true_iff in E as [Ep E]. pose proof (mtov_items p Ep) as [I Q].
  pose proof (S18 j ltac:(cbn [length]; lia)) as Lj.
  apply flat_list with (t := mtov p [chr 59]).
  - apply ref_word_word; assumption.
  - rewrite list_of_name by (apply sub_name_name; [exact N|exact J|lia]). specialize (F O ltac:(cbn [length]; lia)). replace (j + Z.of_nat 0) with j in F by lia. exact F.
  - exact Q.
  - rewrite I. apply flat_elements, Ep.
  - apply IH; [lia| | |exact E].
    + intros i Hi. apply S18. cbn [length]. lia.
    + intros i Hi. specialize (F (S i) ltac:(cbn [length]; lia)). cbn [nth] in F. rewrite <- F. do 3 f_equal. lia.
Qed.
Lemma flat_more ws n l r : flat ws n l r -> forall m, (n <= m)%nat -> flat ws m l r.
Proof.
  induction 1 as [n|n w l r E F IH|n x t a l r W L Q F IH G IH']; intros m M; [constructor|constructor; [exact E|apply IH, M]|].
  destruct m as [|m]; [lia|]. econstructor; try eassumption; [apply IH; lia|apply IH'; lia].
Qed.
Lemma name_word name : list_name name -> word (chr 36 :: name) = true.
Proof.
  intros N. pose proof (list_name_chars _ N) as (_ & _ & _ & _ & _ & L). apply list_name_all in N. unfold word. cbn [nonempty]. rewrite !andb_true_iff. repeat split.
  - cbn [forallb]. change (sep (chr 36)) with false. cbn [negb andb]. rewrite forallb_forall in *. intros c Hc. apply negb_true_iff, sep_next, N, Hc.
  - cbn [without forallb]. change (among (chr 36) [34]) with false. cbn [negb andb]. rewrite forallb_forall in *. intros c Hc. apply N, upper_next_chars in Hc as (_ & _ & Hc).
    unfold among in *. cbn [existsb] in *. lia.
  - cbn [length]. lia.
Qed.
(** A list in two levels is what its name stands for. *)
Lemma name_stands ws name t l : list_name name -> list_of ws name = Some t -> without [34] t = true -> flat ws 2 (items t) l ->
  list_holds ws name l /\ stands_for ws (chr 36 :: name) l.
Proof.
  intros N L Q F. split; [exists t; repeat split; [exact L|exact Q|apply (flat_more _ _ _ _ F); lia]|].
  pose proof (name_word name N) as W. pose proof (word_parts _ W) as (_ & Qn & _). split; [exact Qn|]. rewrite items_word by exact W.
  rewrite <- (app_nil_r l). eapply flat_list; try eassumption; [apply (flat_more _ _ _ _ F); lia|constructor].
Qed.

Notation no_cut := room_for_numbers.
Lemma KL_lst_whole ws name l chunk : list_name name -> chunk < 0 \/ Z.of_nat (length l) < chunk ->
  KL_lst ws name l chunk = Ok (true, M_Kdb.put (to_upper name) (mtov l [chr 59]) ws).
Proof.
  intros N C. unfold KL_lst. destruct (Z.of_nat (length l) =? 0) eqn:Z0.
  - destruct l; [|cbn [length] in Z0; lia]. rewrite set_list_ok by exact N. reflexivity.
  - replace ((Z.of_nat (length l) <? chunk) || (chunk <? 0)) with true by lia. rewrite set_list_ok by exact N. reflexivity.
Qed.
Lemma KL_lst_parts ws name l chunk : list_name name -> 0 < chunk <= Z.of_nat (length l) -> no_cut name l -> let parts := chop (length l) (Z.to_nat chunk) l in
  exists ws', KL_lst ws name l chunk = Ok (true, M_Kdb.put (to_upper name) (concat (map (fun i => ref_word name i ++ [chr 59]) (seqZ 0 (length parts)))) ws') /\
    (forall i, (i < length parts)%nat -> M_Kdb.find (to_upper (sub_name name (Z.of_nat i))) ws' = Some (mtov (nth i parts []) [chr 59])) /\
    (forall k, (forall i, 0 <= i < Z.of_nat (length parts) -> k <> to_upper (sub_name name i)) -> M_Kdb.find k ws' = M_Kdb.find k ws).
Proof.
  intros N C Hn parts. unfold KL_lst. replace (Z.of_nat (length l) =? 0) with false by lia. replace ((Z.of_nat (length l) <? chunk) || (chunk <? 0)) with false by lia.
  set (k := Z.to_nat chunk) in *. assert (K : (1 <= k)%nat) by lia.
  destruct (sub_lists_chop name k N K (length l) ws 0 l ltac:(lia) ltac:(lia)) as (ws' & E1 & E2 & E3); [intros i Hi; apply Hn; lia|].
  rewrite E1. pose proof (chop_count k K (length l) l) as Cc. fold parts in E1, E2, E3, Cc |- *.
  rewrite Z.add_0_l, Nat2Z.id. rewrite main_text_refs by (try lia; intros i Hi; apply Hn; lia). rewrite set_list_ok by exact N. cbn [keep].
  exists ws'. split; [reflexivity|]. split; [exact E2|exact E3].
Qed.
(** [ws2]: any workspace that keeps the list and its sublists. *)
Definition keeps (name : str) (l : list str) (ws ws2 : lists) : Prop :=
  forall x, same_name x name \/ (exists j, 0 <= j < Z.of_nat (length l) /\ same_name x (sub_name name j)) -> list_of ws2 x = list_of ws x.
Theorem KL_lst_kept ws name l chunk : list_name name -> chunk <> 0 -> forallb element l = true -> (chunk < 0 \/ Z.of_nat (length l) < chunk \/ no_cut name l) ->
  exists ws', KL_lst ws name l chunk = Ok (true, ws') /\ (forall ws2, keeps name l ws' ws2 -> list_holds ws2 name l /\ stands_for ws2 (chr 36 :: name) l) /\
    (forall other, ~ same_name other name -> (forall j, 0 <= j < Z.of_nat (length l) -> ~ same_name other (sub_name name j)) -> list_of ws' other = list_of ws other).
Proof.
  intros N C0 E H.
  destruct (Z_lt_dec chunk 0) as [Cn|Cn]; [|destruct (Z_lt_dec (Z.of_nat (length l)) chunk) as [Cl|Cl]].
  1, 2: rewrite KL_lst_whole by (try exact N; lia); eexists; (split; [reflexivity|]); pose proof (mtov_items l E) as [I Q]; split;
    [intros ws2 K; apply name_stands with (t := mtov l [chr 59]); [exact N|rewrite K by (left; reflexivity); rewrite list_of_name by exact N; apply find_put_eq|exact Q|rewrite I; apply flat_elements, E]|
     intros other D _; unfold list_of; apply find_put_neq; intros Eo; apply D; unfold same_name; rewrite (list_name_key name N); exact Eo].
  assert (Hn : no_cut name l) by (destruct H as [H|[H|H]]; [lia|lia|exact H]). clear H.
  destruct (KL_lst_parts ws name l chunk N ltac:(lia) Hn) as (ws' & E1 & E2 & E3). rewrite E1. eexists. split; [reflexivity|]. clear E1.
  set (k := Z.to_nat chunk) in *. assert (K : (1 <= k)%nat) by lia. pose proof (chop_count k K (length l) l) as Cc. set (parts := chop (length l) k l) in *.
  assert (S18 : forall i, 0 <= i < 0 + Z.of_nat (length parts) -> (length (sub_name name i) <= 18)%nat) by (intros i Hi; apply Hn; lia).
  split.
  - intros ws2 Kp. eapply name_stands; [exact N|rewrite Kp by (left; reflexivity); rewrite list_of_name by exact N; apply find_put_eq| |].
    + assert (W : forall n j, 0 <= j -> without [34] (concat (map (fun i => ref_word name i ++ [chr 59]) (seqZ j n))) = true); [|apply W; lia].
      induction n as [|n IH]; intros j J; [reflexivity|]. cbn [seqZ map concat]. unfold without in *. rewrite !forallb_app, IH by lia.
      pose proof (ref_clean (fun c => among c [34]) name j N J) as Q. unfold clean in Q. rewrite andb_true_iff in Q. destruct Q as [_ Q]; [|reflexivity|rewrite Q; reflexivity].
      intros c Hc'. apply upper_next_chars in Hc' as (_ & _ & Hc'). unfold among in *. cbn [existsb] in *. lia.
    + unfold items. rewrite refs_tokens; [|exact N|exact sep_next|reflexivity|reflexivity|lia].
      replace l with (concat parts) by (apply chop_concat; [exact K|lia]). apply flat_refs; [exact N|lia|exact S18| |apply chop_parts, E].
      intros i Hi. rewrite Z.add_0_l. assert (Ns : list_name (sub_name name (Z.of_nat i))) by (apply sub_name_name; [exact N|lia|specialize (S18 (Z.of_nat i) ltac:(lia)); lia]).
      rewrite <- list_of_name by exact Ns. rewrite Kp by (right; exists (Z.of_nat i); split; [lia|reflexivity]). rewrite list_of_name by exact Ns.
      rewrite find_put_neq; [apply E2, Hi|]. apply sub_name_other. lia.
  - intros other D Do. unfold list_of. rewrite find_put_neq.
    + apply E3. intros i Hi Eo. apply (Do i ltac:(lia)). unfold same_name. rewrite Eo. symmetry. apply list_name_key, sub_name_name; [exact N|lia|]. specialize (S18 i Hi). lia.
    + intros Eo. apply D. unfold same_name. rewrite Eo. symmetry. apply list_name_key, N.
Qed.
Theorem KL_lst_holds ws name l chunk : list_name name -> chunk <> 0 -> forallb element l = true -> (chunk < 0 \/ Z.of_nat (length l) < chunk \/ no_cut name l) ->
  exists ws', KL_lst ws name l chunk = Ok (true, ws') /\ list_holds ws' name l /\ stands_for ws' (chr 36 :: name) l /\
    (forall other, ~ same_name other name -> (forall j, 0 <= j < Z.of_nat (length l) -> ~ same_name other (sub_name name j)) -> list_of ws' other = list_of ws other).
Proof.
  intros N C0 E H. destruct (KL_lst_kept ws name l chunk N C0 E H) as (ws' & A & B & C). exists ws'. destruct (B ws') as [B1 B2]; [intros x _; reflexivity|]. split; [exact A|]. split; [exact B1|]. split; [exact B2|exact C].
Qed.

(** * KL_expand *)
Lemma lseps_sep c : mem L_SEPS c = sep c || among c [12].
Proof. unfold mem, L_SEPS, sep, among, BLANK. cbn [existsb]. rewrite !eqb_code by lia. lia. Qed.
Definition plain (w : str) : bool := element w && without [12] w.
Lemma plain_clean w : plain w = true -> clean (mem L_SEPS) w = true /\ (forall d, (match w with c :: name => if is 36 c then list_of d name else None | [] => None end) = None).
Proof.
  unfold plain. rewrite andb_true_iff. intros [E W]. pose proof (word_parts _ (element_word _ E)) as (C & _ & _). unfold clean in *. apply andb_true_iff in C as [C1 C2]. split.
  - rewrite C1. cbn [andb]. unfold without in W. rewrite forallb_forall in *. intros c Hc. specialize (C2 c Hc). specialize (W c Hc). rewrite lseps_sep. cbn beta in *. destruct (sep c), (among c [12]); try discriminate; reflexivity.
  - intros d. apply element_expands in E. destruct w as [|c w]; [reflexivity|]. cbn [expands] in E. apply orb_false_iff in E as [_ ->]. reflexivity.
Qed.
Lemma expand_plain ws sub l : forallb plain l = true -> expand_words ws sub l = Ok l.
Proof.
  induction l as [|w l IH]; intros H; [reflexivity|]. cbn [forallb] in H. apply andb_true_iff in H as [A B]. cbn [expand_words].
  rewrite (proj2 (plain_clean w A) ws), IH by exact B. reflexivity.
Qed.
Lemma kl_expand_plain ws d l : forallb plain l = true -> kl_expand ws (S d) (mtov l [chr 59]) = Ok l.
Proof.
  intros H. cbn [kl_expand]. rewrite vtoms_tokens, mtov_joined, tokens_back; [apply expand_plain, H|reflexivity|].
  rewrite forallb_forall in *. intros w Hw. apply plain_clean, H, Hw.
Qed.
Lemma chop_fits chunk : (1 <= chunk)%nat -> forall n l, (length l <= n)%nat -> (length (chop n chunk l) * chunk < length l + chunk)%nat.
Proof.
  intros C. induction n as [|n IH]; intros l L; [cbn; lia|]. destruct l as [|x l]; [cbn; lia|]. cbn [chop length].
  specialize (IH (skipn chunk (x :: l))). rewrite skipn_length in IH. cbn [length] in *.
  destruct (Nat.leb_spec chunk (S (length l))); [specialize (IH ltac:(lia)); lia|].
  rewrite (skipn_all2 (x :: l)) in * by (cbn [length]; lia). destruct n; cbn [chop length] in *; lia.
Qed.
Lemma expand_parts ws d name chunk : list_name name -> (1 <= chunk)%nat -> forall n l j, 0 <= j -> (length l <= n)%nat -> (length l <= chunk * chunk)%nat -> forallb plain l = true ->
  (forall i, j <= i < j + Z.of_nat (length (chop n chunk l)) -> (length (sub_name name i) <= 18)%nat) ->
  (forall i, (i < length (chop n chunk l))%nat -> M_Kdb.find (to_upper (sub_name name (j + Z.of_nat i))) ws = Some (mtov (nth i (chop n chunk l) []) [chr 59])) ->
  expand_words ws (kl_expand ws (S d)) (map (ref_word name) (seqZ j (length (chop n chunk l)))) = Ok l.
Proof.
  intros N C. induction n as [|n IH]; intros l j J L Sq P S18 F; [destruct l; [reflexivity|cbn in L; lia]|].
  destruct l as [|x l]; [reflexivity|]. cbn [chop length seqZ map expand_words] in *. 
  pose proof (S18 j ltac:(lia)) as Lj. specialize (F O ltac:(lia)) as F0. cbn [nth] in F0. replace (j + Z.of_nat 0) with j in F0 by lia.
  assert (A : forallb plain (firstn chunk (x :: l)) = true /\ forallb plain (skipn chunk (x :: l)) = true) by (apply andb_true_iff; rewrite <- forallb_app, firstn_skipn; exact P).
  destruct A as [A B]. unfold ref_word at 1. change (is 36 (chr 36)) with true. cbn iota.
  rewrite list_of_name by (apply sub_name_name; [exact N|exact J|lia]). rewrite F0, kl_expand_plain by exact A.
  pose proof (firstn_length chunk (x :: l)) as Fl. destruct (firstn chunk (x :: l)) as [|y p] eqn:Ef; [cbn [length] in Fl; lia|].
  rewrite map_length, seqZ_length.
  pose proof (chop_fits chunk C n (skipn chunk (x :: l)) ltac:(rewrite skipn_length; cbn [length] in *; lia)) as Ft. rewrite skipn_length in Ft.
  replace (Nat.ltb 1 (length (y :: p)) && Nat.leb (length (y :: p)) (length (chop n chunk (skipn chunk (x :: l))))) with false.
  - rewrite IH; [|lia|rewrite skipn_length; cbn [length] in *; lia|rewrite skipn_length; cbn [length] in *; lia|exact B|intros i Hi; apply S18; lia|].
    + rewrite <- Ef, firstn_skipn. reflexivity.
    + intros i Hi. specialize (F (S i) ltac:(lia)). cbn [nth] in F. rewrite <- F. do 3 f_equal. lia.
  - symmetry. apply andb_false_iff. right. apply Nat.leb_gt. rewrite Fl. cbn [length] in *.
    destruct (Nat.leb_spec chunk (S (length l))).
    + rewrite Nat.min_l by lia. assert (length (chop n chunk (skipn chunk (x :: l))) * chunk < chunk * chunk)%nat by lia. nia.
    + rewrite (skipn_all2 (x :: l)) in * by (cbn [length]; lia). destruct n; cbn [chop length]; lia.
Qed.
Theorem KL_expand_lst ws name l chunk : list_name name -> 0 < chunk -> Z.of_nat (length l) <= chunk * chunk -> forallb element l = true -> forallb (without [12]) l = true -> no_cut name l ->
  exists ws' t, KL_lst ws name l chunk = Ok (true, ws') /\ list_of ws' name = Some t /\ KL_expand ws' t = Ok l.
Proof.
  intros N C Sq E W H.
  assert (P : forallb plain l = true). { rewrite forallb_forall in *. intros w Hw. unfold plain. rewrite (E w Hw), (W w Hw). reflexivity. }
  destruct (Z_lt_dec (Z.of_nat (length l)) chunk) as [Cl|Cl].
  - rewrite KL_lst_whole by (try exact N; lia). do 2 eexists. split; [reflexivity|]. rewrite list_of_name by exact N. rewrite find_put_eq. split; [reflexivity|].
    unfold KL_expand. apply kl_expand_plain, P.
  - destruct (KL_lst_parts ws name l chunk N ltac:(lia) H) as (ws' & E1 & E2 & E3). rewrite E1. do 2 eexists. split; [reflexivity|]. rewrite list_of_name by exact N.
    rewrite find_put_eq. split; [reflexivity|]. unfold KL_expand. cbn [kl_expand]. rewrite vtoms_tokens.
    rewrite refs_tokens; [|exact N| |reflexivity|reflexivity|lia].
    + pose proof (chop_count (Z.to_nat chunk) ltac:(lia) (length l) l). apply expand_parts; try exact N; try lia; try exact P.
      * intros i Hi. apply H. lia.
      * intros i Hi. rewrite find_put_neq; [apply E2, Hi|]. apply sub_name_other. lia.
    + intros c Hc. rewrite lseps_sep. apply upper_next_chars in Hc as (_ & -> & Hc). unfold among in *. cbn [existsb] in *. lia.
Qed.

(** * Words in quotes *)
Section Quoted.
Variables (files : str -> option str) (ws : lists).
Lemma aread_inside w rest : without [34] w = true -> forall v, (length v + length w <= 127)%nat -> v ++ w <> [] ->
  aread (w ++ QUOTE :: rest) v true = (v ++ w) :: aread rest [] false.
Proof.
  induction w as [|c w IH]; intros Q v L N; cbn [app aread negb andb length] in *.
  - rewrite app_nil_r in *. replace (Nat.ltb (length v) A_MAX_ARG) with true by (symmetry; apply Nat.ltb_lt; unfold A_MAX_ARG; lia). replace (Ascii.eqb QUOTE QUOTE) with true by reflexivity. destruct v; [congruence|reflexivity].
  - unfold without in Q. cbn [forallb] in Q. apply andb_true_iff in Q as [Q1 Q2]. replace (Nat.ltb (length v) A_MAX_ARG) with true by (symmetry; apply Nat.ltb_lt; unfold A_MAX_ARG; lia).
    replace (Ascii.eqb c QUOTE) with false by (symmetry; destruct (Ascii.eqb_spec c QUOTE) as [->|]; [discriminate Q1|reflexivity]). rewrite IH; [rewrite <- app_assoc; reflexivity|exact Q2|rewrite app_length; cbn; lia|rewrite <- app_assoc; exact N].
Qed.
Lemma aread_quoted l : forallb quotable l = true -> aread (concat (map quoted l)) [] false = l.
Proof.
  induction l as [|w l IH]; intros H; [reflexivity|]. cbn [forallb] in H. apply andb_true_iff in H as [H1 H2]. unfold quotable in H1. apply andb_true_iff in H1 as [H1 F]. apply andb_true_iff in H1 as [H1 L]. apply andb_true_iff in H1 as [N Q]. apply Nat.leb_le in L.
  cbn [map concat]. unfold quoted at 1. cbn [app]. rewrite <- app_assoc. cbn [app]. change (aread (w ++ QUOTE :: BLANK :: concat (map quoted l)) [] true = w :: l).
  rewrite aread_inside; [|exact Q|cbn [length]; lia|destruct w; [discriminate N|discriminate]]. cbn [app]. f_equal. cbn [aread]. exact (IH H2).
Qed.
Lemma quoted_init l : forallb quotable l = true -> a_init files ws (concat (map quoted l)) = Some l.
Proof.
  intros H. unfold a_init, add_arg. set (t := concat (map quoted l)).
  assert (E : expands t = false) by (destruct l as [|w l]; reflexivity).
  assert (A : forall left n, a_add files ws left (S n) t = (l, false)).
  { intros left n. destruct left as [|left]; cbn [a_add]; rewrite E; unfold t; rewrite aread_quoted by exact H.
    all: clear t E; induction l as [|w l IH]; [reflexivity|]; cbn [forallb] in H; apply andb_true_iff in H as [H1 H2]; unfold quotable in H1; apply andb_true_iff in H1 as [H1 F]; cbn [map].
    all: replace (expands w) with false by (unfold expands; destruct w as [|c w]; [reflexivity|]; unfold first_not, among in F; unfold is; cbn [existsb] in F; destruct (code c =? 64), (code c =? 36); try discriminate F; reflexivity).
    all: unfold gather in *; cbn [map concat existsb fst snd app orb]; specialize (IH H2); injection IH as I1 I2; rewrite I1, I2; reflexivity. }
  rewrite A. reflexivity.
Qed.
End Quoted.
