(** Properties C66 to C68: comments, lists and identities saved in an ASCII file and loaded again. *)
From Coq Require Import ZArith Ascii String List Bool Lia Sorted.
From Verif Require Import M_Base M_Time M_Names M_Lex M_Double M_Decimal M_Kdb M_Ascii S_Names S_Ascii L_Time L_Names L_Ascii L_Ascii2.
Import ListNotations.
Open Scope Z_scope.

(** * The examples *)
Definition texts (l : list (string * string)) : list (str * str) := map (fun x => (S2L (fst x), S2L (snd x))) l.
(** Decision procedures, for the examples only. *)
Definition nocontrolb (t : str) : bool :=
  (fix go s := match s with
   | c :: s' => (match s' with d :: _ => negb ((code c =? 94) && (((65 <=? code d) && (code d <=? 90)) || ((97 <=? code d) && (code d <=? 122)) || (code d =? 91))) | [] => true end) && go s'
   | [] => true end) t.
Lemma nocontrolb_ok t : nocontrolb t = true -> no_control t.
Proof.
  intros H a c b E. subst t. induction a as [|x a IH].
  - cbn [app nocontrolb] in H. apply andb_true_iff in H as [H _]. change (code (chr 94) =? 94) with true in H. cbn [andb] in H.
    unfold control_letter. lia.
  - cbn [app nocontrolb] in H. apply andb_true_iff in H as [_ H]. exact (IH H).
Qed.
Definition printableb (t : str) : bool := forallb (fun c => (32 <=? code c) || (code c =? 10)) t.
Lemma printableb_ok t : printableb t = true -> printable t.
Proof. intros H. apply Forall_forall. intros c Hc. unfold printableb in H. rewrite forallb_forall in H. specialize (H c Hc). lia. Qed.
Lemma plain_ok t : printableb t && nocontrolb t && (Z.of_nat (length t) <? 40000) = true -> plain t.
Proof.
  intros H. apply andb_true_iff in H as [H H3]. apply andb_true_iff in H as [H1 H2]. apply printableb_ok in H1. apply nocontrolb_ok in H2.
  repeat split; [exact H1|exact H2|lia].
Qed.
Ltac is_plain := apply plain_ok; vm_compute; reflexivity.
Ltac not_in := let H := fresh in intros H; vm_compute in H; repeat (destruct H as [H|H]; [discriminate H|]); exact H.
Ltac is_in := vm_compute; repeat (first [left; reflexivity|right]).
Ltac is_short := split; [vm_compute; repeat constructor|split; [not_in|let E := fresh in intros ? ? E; vm_compute in E; injection E as <- <-; vm_compute; discriminate]].
Ltac is_accepted := apply check_name_iff; vm_compute; reflexivity.
Ltac is_database := split;
  [vm_compute map; repeat (constructor; [|repeat (constructor; [vm_compute; reflexivity|]); constructor]); constructor
  |vm_compute map; repeat (constructor; [is_accepted|]); constructor].
Ltac is_no_sharp := let n := fresh in let H := fresh in intros n H; vm_compute in H; repeat (destruct H as [H|H]; [subst n; not_in|]); contradiction.

(** Line feeds replaced by blanks. *)
Lemma lf_code c : code (lf_to_sp c) = 32 \/ lf_to_sp c = c.
Proof. unfold lf_to_sp. destruct (code c =? 10); [left; reflexivity|right; reflexivity]. Qed.
Lemma lf_plain t : plain t -> plain (map lf_to_sp t).
Proof.
  intros (P & N & L). split; [|split; [|rewrite map_length; exact L]].
  - apply Forall_forall. intros c H. apply in_map_iff in H as (d & <- & Hd). destruct (lf_code d) as [-> | ->]; [lia|].
    unfold printable in P. rewrite Forall_forall in P. exact (P d Hd).
  - intros a c b E. apply map_eq_app in E as (a' & r & -> & _ & E2).
    destruct r as [|x r]; [discriminate|]. destruct r as [|y r]; [discriminate|]. cbn [map] in E2. injection E2 as Ex Ey Er.
    assert (x = chr 94). { destruct (lf_code x) as [C|C]; [rewrite Ex in C; discriminate C|congruence]. } subst x.
    destruct (lf_code y) as [C|C].
    + rewrite Ey in C. unfold control_letter. lia.
    + rewrite C in Ey. subst y. exact (N a' c r eq_refl).
Qed.
Lemma lf_nonblank t : nonblank (map lf_to_sp t) = nonblank t.
Proof.
  induction t as [|c t IH]; [reflexivity|]. unfold nonblank in *. cbn [map filter]. rewrite IH.
  unfold lf_to_sp. destruct (code c =? 10) eqn:E; [|reflexivity].
  apply Z.eqb_eq in E. assert (isspace c = true) as -> by (unfold isspace; rewrite E; reflexivity). reflexivity.
Qed.
Lemma lf_no_lf t : ~ In (chr 10) (map lf_to_sp t).
Proof.
  intros H. apply in_map_iff in H as (c & E & _). unfold lf_to_sp in E. destruct (code c =? 10) eqn:F; [discriminate E|]. subst c. discriminate F.
Qed.
Lemma lf_id t : ~ In (chr 10) t -> map lf_to_sp t = t.
Proof.
  intros H. rewrite <- (map_id t) at 2. apply map_ext_in. intros c Hc. unfold lf_to_sp. rewrite (no_lf t H c Hc). reflexivity.
Qed.
Lemma map_same {V} (f : V -> V) (db : list (str * V)) : Forall (fun v => f v = v) (map snd db) -> map (fun x => (fst x, f (snd x))) db = db.
Proof.
  intros H. rewrite <- (map_id db) at 2. apply map_ext_in. intros [n v] Hin. cbn. f_equal.
  rewrite Forall_forall in H. apply H. apply in_map_iff. exists (n, v). auto.
Qed.

(** * C66: comments *)
(** Comments of one short line come back unchanged. The full claim (all comments come back unchanged) is false, see below;
    what is proved of the other comments is C66_content_partial. *)
Theorem C66_comments_partial : forall db, database COMMENTS db -> no_sharp db ->
  Forall (fun t => plain t /\ short_line t) (map snd db) ->
  load_comments (save_comments db) = Done (true, db).
Proof.
  intros db D S H. unfold load_comments, save_comments. etransitivity; [apply (load_texts_ok COMMENTS (map lf_to_sp) db D S)|].
  - eapply Forall_impl; [|exact H]. cbn. intros t [P _]. apply lf_plain in P. destruct P as (A & B & C). auto.
  - do 2 f_equal. apply (map_same (fun t => wrap (map lf_to_sp t) 60)). eapply Forall_impl; [|exact H]. cbn. intros t ((P & _) & (L & N & B)).
    rewrite (lf_id t N). apply wrap_short; [exact P|exact (conj L (conj N B))].
Qed.
Print Assumptions C66_comments_partial.
Example C66_comments_ex : let db := texts [("GDP", "Gross domestic product (1995 prices), \ 2 sources"); ("X_1", "")]%string in
  database COMMENTS db /\ no_sharp db /\ Forall (fun t => plain t /\ short_line t) (map snd db).
Proof.
  cbv zeta. split; [is_database|]. split; [is_no_sharp|].
  repeat (constructor; [split; [is_plain|]|]); [is_short| |constructor].
  split; [cbn; lia|]. split; [intros []|discriminate].
Qed.

(** Of all plain comments: the names, and the characters that are not blanks, in lines of at most 60 characters. *)
Theorem C66_content_partial : forall db, database COMMENTS db -> no_sharp db -> Forall plain (map snd db) ->
  exists db', load_comments (save_comments db) = Done (true, db') /\ map fst db' = map fst db /\
    Forall2 (fun t t' => nonblank t' = nonblank t /\ Forall (fun l => (length l <= 60)%nat) (lines t')) (map snd db) (map snd db').
Proof.
  intros db D S H. exists (map (fun x => (fst x, wrap (map lf_to_sp (snd x)) 60)) db). split; [|split].
  - apply (load_texts_ok COMMENTS (map lf_to_sp) db D S). eapply Forall_impl; [|exact H]. intros t P. apply lf_plain in P. exact P.
  - rewrite map_map. reflexivity.
  - rewrite map_map. cbn [snd]. clear. induction db as [|[n t] db IH]; cbn [map snd]; [constructor|]. constructor; [|exact IH]. split.
    + rewrite wrap_nonblank by lia. apply lf_nonblank.
    + apply wrap_lines; [lia|apply lf_no_lf].
Qed.
Print Assumptions C66_content_partial.
Definition long_comment : str := S2L "The gross domestic product at the prices of the preceding year, in millions".
Example C66_content_ex : let db := [(S2L "A", long_comment)] in database COMMENTS db /\ no_sharp db /\ Forall plain (map snd db) /\
  load_comments (save_comments db) <> Done (true, db).
Proof. cbv zeta. split; [is_database|]. split; [is_no_sharp|]. split; [constructor; [is_plain|constructor]|vm_compute; discriminate]. Qed.

(** A caret before a letter becomes a control character and the letter is lost. *)
Theorem C66_caret_refuted : exists db db', database COMMENTS db /\ no_sharp db /\
  Forall (fun t => printable t /\ short_line t) (map snd db) /\
  load_comments (save_comments db) = Done (true, db') /\ map nonblank (map snd db') <> map nonblank (map snd db).
Proof.
  exists (texts [("A", "m^B")]%string), [(S2L "A", [chr 109; chr 2])].
  split; [is_database|]. split; [is_no_sharp|]. split; [constructor; [split; [apply printableb_ok; vm_compute; reflexivity|is_short]|constructor]|].
  split; [vm_compute; reflexivity|vm_compute; discriminate].
Qed.
Print Assumptions C66_caret_refuted.
(** A name may hold a sharp: its comment is read as the comment of another name. *)
Theorem C66_sharp_refuted : exists db db', database COMMENTS db /\ Forall (fun t => plain t /\ short_line t) (map snd db) /\
  load_comments (save_comments db) = Done (true, db') /\ map fst db' <> map fst db.
Proof.
  exists (texts [("A#B", "text")]%string), (texts [("A", ""); ("B", "text")]%string).
  split; [is_database|]. split; [constructor; [split; [is_plain|is_short]|constructor]|]. split; [vm_compute; reflexivity|vm_compute; discriminate].
Qed.
Print Assumptions C66_sharp_refuted.
(** Saving and loading is not stable: a second save adds a blank to a comment that the first load has cut. *)
Theorem C66_stable_refuted : exists db db1 db2, database COMMENTS db /\ no_sharp db /\ Forall plain (map snd db) /\
  load_comments (save_comments db) = Done (true, db1) /\ load_comments (save_comments db1) = Done (true, db2) /\
  map (fun t => length t) (map snd db2) <> map (fun t => length t) (map snd db1).
Proof.
  exists [(S2L "A", long_comment)].
  eexists. eexists. split; [is_database|]. split; [is_no_sharp|]. split; [constructor; [is_plain|constructor]|].
  split; [vm_compute; reflexivity|]. split; [vm_compute; reflexivity|vm_compute; discriminate].
Qed.
Print Assumptions C66_stable_refuted.
(** The line feeds of a comment are lost, even when it is short. *)
Theorem C66_lines_refuted : exists db db', database COMMENTS db /\ no_sharp db /\ Forall plain (map snd db) /\
  load_comments (save_comments db) = Done (true, db') /\ map lines (map snd db') <> map lines (map snd db).
Proof.
  exists [(S2L "A", S2L "one" ++ chr 10 :: S2L "two")], (texts [("A", "one two")]%string).
  split; [is_database|]. split; [is_no_sharp|]. split; [constructor; [is_plain|constructor]|]. split; [vm_compute; reflexivity|vm_compute; discriminate].
Qed.
Print Assumptions C66_lines_refuted.

(** * C67: lists *)
(** Lists of one short line, or of several lines, come back unchanged. The full claim is false, see below. *)
Theorem C67_lists_partial : forall db, database LISTS db -> no_sharp db ->
  Forall (fun t => plain t /\ (short_line t \/ has_lf t)) (map snd db) ->
  load_lists (save_lists db) = Done (true, db).
Proof.
  intros db D S H. unfold load_lists, save_lists. etransitivity; [apply (load_texts_ok LISTS (fun t => t) db D S)|].
  - eapply Forall_impl; [|exact H]. cbn. intros t [P _]. exact P.
  - do 2 f_equal. apply (map_same (fun t => wrap t 60)). eapply Forall_impl; [|exact H]. cbn. intros t ((P & _) & [B|B]);
      [apply wrap_short; assumption|apply wrap_lf; exact B].
Qed.
Print Assumptions C67_lists_partial.
Example C67_lists_ex : let db := [(S2L "L", S2L "A;B, C"); (S2L "M", S2L "X" ++ chr 10 :: S2L "Y")] in
  database LISTS db /\ no_sharp db /\ Forall (fun t => plain t /\ (short_line t \/ has_lf t)) (map snd db).
Proof.
  cbv zeta. split; [is_database|]. split; [is_no_sharp|].
  constructor; [split; [is_plain|left; is_short]|]. constructor; [split; [is_plain|right; is_in]|constructor].
Qed.
(** Long lists are cut in lines, and keep their elements: for lists of names of at most 58 characters. *)
Theorem C67_elements_partial : forall db, database LISTS db -> no_sharp db ->
  Forall (fun t => plain t /\ in_names t /\ Forall (fun e => (length e <= 58)%nat) (elements t)) (map snd db) ->
  exists db', load_lists (save_lists db) = Done (true, db') /\ map fst db' = map fst db /\ map elements (map snd db') = map elements (map snd db).
Proof.
  intros db D S H. exists (map (fun x => (fst x, wrap (snd x) 60)) db). split; [|split].
  - apply (load_texts_ok LISTS (fun t => t) db D S). eapply Forall_impl; [|exact H]. cbn. intros t [P _]. exact P.
  - rewrite map_map. reflexivity.
  - rewrite !map_map. apply map_ext_in. intros [n t] Hin. cbn [snd]. rewrite Forall_forall in H.
    destruct (H t) as ((P & _) & A & B); [apply in_map_iff; exists (n, t); auto|]. apply wrap_elements; assumption.
Qed.
Print Assumptions C67_elements_partial.
Definition long_list : str := S2L "GDP;CONSUMPTION,INVESTMENT;EXPORTS IMPORTS;EMPLOYMENT;UNEMPLOYMENT;PRICE_INDEX".
Example C67_elements_ex : let db := [(S2L "L", long_list)] in database LISTS db /\ no_sharp db /\
  Forall (fun t => plain t /\ in_names t /\ Forall (fun e => (length e <= 58)%nat) (elements t)) (map snd db) /\
  load_lists (save_lists db) <> Done (true, db) /\ length (elements long_list) = 8%nat.
Proof.
  cbv zeta. split; [is_database|]. split; [is_no_sharp|]. split; [|split; [vm_compute; discriminate|vm_compute; reflexivity]].
  constructor; [|constructor]. split; [is_plain|]. split.
  - apply Forall_forall. intros c Hc. vm_compute in Hc. repeat (destruct Hc as [<-|Hc]; [vm_compute; intuition discriminate|]). destruct Hc.
  - vm_compute elements. repeat (constructor; [vm_compute; repeat constructor|]). constructor.
Qed.
(** An element of more than 60 characters is cut in two. *)
Theorem C67_long_refuted : exists db db', database LISTS db /\ no_sharp db /\ Forall (fun t => plain t /\ in_names t) (map snd db) /\
  load_lists (save_lists db) = Done (true, db') /\ map elements (map snd db') <> map elements (map snd db).
Proof.
  exists [(S2L "L", repeat (chr 65) 61)]. eexists. split; [is_database|]. split; [is_no_sharp|]. split; [|split; [vm_compute; reflexivity|vm_compute; discriminate]].
  constructor; [|constructor]. split; [is_plain|]. apply Forall_forall. intros c Hc. apply repeat_spec in Hc. subst c. vm_compute. intuition discriminate.
Qed.
Print Assumptions C67_long_refuted.
(** Cut after a minus sign inside an element. *)
Theorem C67_sign_refuted : exists db db', database LISTS db /\ no_sharp db /\
  Forall (fun t => plain t /\ Forall (fun e => (length e <= 58)%nat) (elements t)) (map snd db) /\
  load_lists (save_lists db) = Done (true, db') /\ map elements (map snd db') <> map elements (map snd db).
Proof.
  exists [(S2L "L", repeat (chr 65) 50 ++ S2L ";X[-1]+YYYYYYYY")]. eexists. split; [is_database|]. split; [is_no_sharp|].
  split; [|split; [vm_compute; reflexivity|vm_compute; discriminate]].
  constructor; [|constructor]. split; [is_plain|]. vm_compute elements. repeat (constructor; [vm_compute; repeat constructor|]). constructor.
Qed.
Print Assumptions C67_sign_refuted.

(** * C68: identities *)
(** Identities that compile and hold neither quote nor backslash come back unchanged. The full claim is false, see below. *)
Theorem C68_identities_partial : forall compiles db, database IDENTITIES db -> no_sharp db ->
  Forall (fun t => plain t /\ unquoted t /\ (short_line t \/ has_lf t) /\ compiles t = true) (map snd db) ->
  load_identities compiles (save_identities db) = Done (true, db).
Proof.
  intros compiles db D S H. rewrite (load_identities_ok compiles db D S).
  - do 2 f_equal. apply (map_same (fun t => identity_of compiles (wrap t 60))). eapply Forall_impl; [|exact H]. cbn.
    intros t ((P & _) & _ & B & C). assert (E : wrap t 60 = t) by (destruct B; [apply wrap_short; assumption|apply wrap_lf; assumption]).
    rewrite E. unfold identity_of. rewrite C. reflexivity.
  - eapply Forall_impl; [|exact H]. cbn. tauto.
Qed.
Print Assumptions C68_identities_partial.
Example C68_identities_ex : let db := [(S2L "X", S2L "ln(Y) + a[-1] ^ 2"); (S2L "Z", S2L "X +" ++ chr 10 :: S2L "d Y")] in
  database IDENTITIES db /\ no_sharp db /\ Forall (fun t => plain t /\ unquoted t /\ (short_line t \/ has_lf t) /\ (fun _ => true) t = true) (map snd db).
Proof.
  cbv zeta. split; [is_database|]. split; [is_no_sharp|].
  constructor; [split; [is_plain|split; [split; not_in|split; [left; is_short|reflexivity]]]|].
  constructor; [split; [is_plain|split; [split; not_in|split; [right; is_in|reflexivity]]]|constructor].
Qed.
(** A power written without blank, X^Y, loses its exponent, for every compiler. *)
Theorem C68_power_refuted : forall compiles, compiles (S2L "X^Y") = true -> exists db db',
  database IDENTITIES db /\ no_sharp db /\ Forall (fun t => printable t /\ unquoted t /\ short_line t /\ compiles t = true) (map snd db) /\
  load_identities compiles (save_identities db) = Done (true, db') /\ db' <> db.
Proof.
  intros compiles C. exists [(S2L "A", S2L "X^Y")], [(S2L "A", identity_of compiles (S2L "X" ++ [chr 25]))].
  split; [is_database|]. split; [is_no_sharp|].
  split; [constructor; [split; [apply printableb_ok; vm_compute; reflexivity|split; [split; not_in|split; [is_short|exact C]]]|constructor]|].
  split; [reflexivity|]. unfold identity_of. destruct (compiles (S2L "X" ++ [chr 25])); vm_compute; discriminate.
Qed.
Print Assumptions C68_power_refuted.
(** The formula is written without escapes: a quote in a formula (in a LEC comment) ends it. *)
Theorem C68_quote_refuted : forall compiles, exists db, database IDENTITIES db /\ no_sharp db /\
  Forall (fun t => plain t /\ short_line t) (map snd db) /\
  load_identities compiles (save_identities db) <> Done (true, db).
Proof.
  intros compiles. exists [(S2L "A", S2L "X + /* the " ++ chr 34 :: S2L "real" ++ chr 34 :: S2L " one */ Y")].
  split; [is_database|]. split; [is_no_sharp|]. split; [constructor; [split; [is_plain|is_short]|constructor]|].
  intros E. assert (G : exists t y b, identity_of compiles (S2L "X + /* the ") = t /\
     load_identities compiles (save_identities [(S2L "A", S2L "X + /* the " ++ chr 34 :: S2L "real" ++ chr 34 :: S2L " one */ Y")]) = Done (b, (S2L "A", t) :: y)).
  { eexists. eexists. eexists. split; [reflexivity|]. reflexivity. }
  destruct G as (t & y & b & T & G). rewrite G in E. apply (f_equal (fun r => match r with Done (_, (_, t) :: _) => t | _ => [] end)) in E. unfold identity_of in T.
  destruct (compiles (S2L "X + /* the ")); cbv beta iota in E; rewrite <- T in E; vm_compute in E; discriminate E.
Qed.
Print Assumptions C68_quote_refuted.
(** A long formula is cut after a sign, inside a number: the formula that comes back is another text (the number 1e-5
    has become 1e, the operator and 5 on two lines). *)
Theorem C68_number_refuted : exists t u, let db := [(S2L "A", t)] in database IDENTITIES db /\ no_sharp db /\
  Forall (fun t => plain t /\ unquoted t) (map snd db) /\
  load_identities (fun _ => true) (save_identities db) = Done (true, [(S2L "A", u)]) /\
  exists a b, t = a ++ S2L "1e-5" ++ b /\ u = a ++ S2L "1e-" ++ LF :: S2L "5" ++ b.
Proof.
  exists (repeat (chr 88) 56 ++ S2L "+1e-5+Y"). eexists. cbv zeta. split; [is_database|]. split; [is_no_sharp|].
  split; [constructor; [split; [is_plain|split; not_in]|constructor]|]. split; [vm_compute; reflexivity|].
  exists (repeat (chr 88) 56 ++ S2L "+"), (S2L "+Y"). split; vm_compute; reflexivity.
Qed.
Print Assumptions C68_number_refuted.
