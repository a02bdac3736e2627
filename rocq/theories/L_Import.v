From Coq Require Import ZArith Ascii String List Bool Lia Sorted Floats.SpecFloat.
From Verif Require Import M_Base M_Report S_Report L_Report5 M_Time M_Names M_Lex M_Double M_Decimal M_Kdb M_Grep M_Ascii M_Import
  S_Time S_Names S_Grep S_Ascii S_Import L_Time L_Names L_Kdb L_Grep2 L_Ascii L_Ascii2 L_Round L_Round2 L_Round3 L_Round4 L_Round5 L_Ascii3.
Import ListNotations.
Open Scope Z_scope.

(** * Rules *)
Lemma star_ok : ordinary (chr 42). Proof. exact star_ordinary. Qed.
Lemma chr_code c z : 0 <= z < 256 -> (code c =? z) = true <-> c = chr z.
Proof. intros Z. split; [intros H; apply code_eq; lia|]. intros ->. rewrite code_chr by exact Z. apply Z.eqb_refl. Qed.
Lemma transcode_renamed rule : forall name, exists o, renamed rule name o /\ forall room, transcode rule name room = firstn room o.
Proof.
  induction rule as [|c rule IH]; intros name.
  - exists []. split; [constructor|]. intros [|k]; reflexivity.
  - destruct (code c =? 45) eqn:M; [|destruct (code c =? 43) eqn:P].
    + apply (proj1 (chr_code c 45 ltac:(lia))) in M. subst c. destruct name as [|x n].
      * exists []. split; [apply R_stop; right; reflexivity|]. intros [|k]; reflexivity.
      * destruct (IH n) as (o & R & E). exists o. split; [apply R_skip, R|]. intros [|k]; [reflexivity|]. cbn [transcode]. change (code (chr 45) =? 45) with true. cbv iota. apply E.
    + apply (proj1 (chr_code c 43 ltac:(lia))) in P. subst c. destruct name as [|x n].
      * exists []. split; [apply R_stop; left; reflexivity|]. intros [|k]; reflexivity.
      * destruct (IH n) as (o & R & E). exists (x :: o). split; [apply R_copy, R|]. intros [|k]; [reflexivity|]. cbn [transcode]. change (code (chr 43) =? 45) with false. change (code (chr 43) =? 43) with true. cbv iota. cbn [firstn]. rewrite E. reflexivity.
    + destruct (IH name) as (o & R & E). exists (c :: o). split.
      * apply R_put; [intros ->; discriminate P|intros ->; discriminate M|exact R].
      * intros [|k]; [reflexivity|]. cbn [transcode]. rewrite M, P. cbn [firstn]. rewrite E. reflexivity.
Qed.
Lemma change_spec rs name : sane rs ->
  (exists m, IMP_change rs name = Ok (Some m) /\ new_name rs name m) \/ (IMP_change rs name = Ok None /\ no_rule rs name).
Proof.
  unfold IMP_change. induction rs as [|[p r] rs IH]; intros S.
  - right. split; [reflexivity|constructor].
  - inversion S as [|? ? (T & H & A) S']; subst. cbn [fst] in *. cbn [find_rule].
    destruct (grep_gnl_defined p name false (chr 42) star_ok A) as (b & E). rewrite E. cbn [rbind].
    pose proof (grep_gnl_iff p name false (chr 42) b star_ok T H E) as I. destruct b.
    + left. destruct (transcode_renamed r name) as (o & R & X). cbn [rbind]. rewrite X. eexists. split; [reflexivity|].
      exists [], p, r, rs, o. split; [reflexivity|]. split; [constructor|]. split; [apply I; reflexivity|]. split; [exact R|reflexivity].
    + assert (N : ~ matches false (chr 42) p name) by (intros X; apply I in X; discriminate X).
      destruct (IH S') as [(m & E1 & (a & q & r' & c & o & -> & Fa & Mq & Rq & Em))|[E1 Nr]].
      * left. exists m. split; [exact E1|]. exists ((p, r) :: a), q, r', c, o. split; [reflexivity|]. split; [constructor; [exact N|exact Fa]|]. split; [exact Mq|]. split; assumption.
      * right. split; [exact E1|]. constructor; [exact N|exact Nr].
Qed.
Lemma fgets_line l s : forall n, Forall (fun c => code c <> 10) l -> (length l < n)%nat -> fgets n (l ++ chr 10 :: s) = (l ++ [chr 10], s).
Proof.
  induction l as [|c l IH]; intros [|n] F L; try (cbn in L; lia); cbn [app fgets].
  - reflexivity.
  - inversion F as [|? ? C F']; subst. replace (code c =? 10) with false by lia. rewrite IH; [reflexivity|exact F'|cbn in L; lia].
Qed.
Lemma word_plain w : S_Import.word w -> Forall (fun c => code c <> 10) w.
Proof. intros [_ H]. eapply Forall_impl; [|exact H]. intros c S E. apply (code_eq c 10) in E; [|lia]. subst c. discriminate S. Qed.
Lemma skip_none s c : isspace c = false -> skip_spaces (c :: s) = c :: s.
Proof. intros H. cbn [skip_spaces]. rewrite H. reflexivity. Qed.
Lemma strip_line p r : S_Import.word p -> S_Import.word r -> strip_end (p ++ [SP] ++ r ++ [LF]) = Ok (p ++ SP :: r).
Proof.
  intros Wp [Nr Wr]. unfold strip_end. destruct (exists_last Nr) as (r' & c & ->). apply Forall_app in Wr as [_ Wc]. inversion Wc; subst.
  replace (p ++ [SP] ++ (r' ++ [c]) ++ [LF]) with (((p ++ SP :: r') ++ [c]) ++ [LF]) by (rewrite <- !app_assoc; reflexivity).
  rewrite (rev_unit _ LF), (rev_unit _ c). change (skip_spaces (LF :: ?s)) with (skip_spaces s). rewrite skip_none by assumption.
  rewrite <- (rev_unit _ c), rev_involutive, <- app_assoc. cbn [app]. reflexivity.
Qed.
Lemma vtoms_two p r : S_Import.word p -> S_Import.word r -> vtoms [SP; chr 9] (p ++ SP :: r) = [p; r].
Proof.
  intros Wp Wr. rewrite vtoms_tokens. change (p ++ SP :: r) with (joined SP [p; r]). apply tokens_back; [reflexivity|].
  assert (C : forall w, S_Import.word w -> clean (mem [SP; chr 9]) w = true).
  { intros w [N W]. unfold clean. destruct w as [|c w]; [congruence|]. cbn [nonempty andb]. apply forallb_forall. intros x Hx. rewrite Forall_forall in W. specialize (W x Hx).
    unfold mem. cbn [existsb]. destruct (Ascii.eqb x SP) eqn:E; [apply Ascii.eqb_eq in E; subst x; discriminate W|].
    destruct (Ascii.eqb x (chr 9)) eqn:E2; [apply Ascii.eqb_eq in E2; subst x; discriminate W|]. reflexivity. }
  cbn [forallb]. rewrite (C p Wp), (C r Wr). reflexivity.
Qed.
Lemma rule_lines_S k s : s <> [] -> rule_lines (S k) s = (let '(l, s') := fgets 255 s in do t <- strip_end l; do rs <- rule_lines k s'; Ok (match vtoms [SP; chr 9] t with [p; r] => (p, r) :: rs | _ => rs end)).
Proof. destruct s; [congruence|reflexivity]. Qed.
Lemma lines_read rs : Forall writable_rule rs -> forall fuel, (length (flat_map rule_line rs) <= fuel)%nat -> rule_lines fuel (flat_map rule_line rs) = Ok rs.
Proof.
  induction 1 as [|[p r] rs (Wp & Wr & L) _ IH]; intros fuel H.
  - destruct fuel; reflexivity.
  - cbn [flat_map] in *. unfold rule_line in H at 1. unfold rule_line at 1. cbn [fst snd] in *. rewrite !app_length in H. cbn [length] in H.
    destruct fuel as [|fuel]; [lia|]. pose proof Wp as [Np _].
    replace ((p ++ [chr 32] ++ r ++ [chr 10]) ++ flat_map rule_line rs) with ((p ++ [chr 32] ++ r) ++ chr 10 :: flat_map rule_line rs) by (rewrite <- !app_assoc; reflexivity).
    rewrite rule_lines_S by (destruct p; [congruence|discriminate]).
    rewrite fgets_line; [|apply Forall_app; split; [apply word_plain, Wp|constructor; [discriminate|apply word_plain, Wr]]|rewrite !app_length; cbn [length] in *; lia].
    replace ((p ++ [chr 32] ++ r) ++ [chr 10]) with (p ++ [SP] ++ r ++ [LF]) by (rewrite <- !app_assoc; reflexivity).
    rewrite strip_line by assumption. cbn [rbind]. rewrite IH by lia. cbn [rbind]. rewrite vtoms_two by assumption. reflexivity.
Qed.
Lemma default_change n : (length n <= 20)%nat -> IMP_change default_rules n = Ok (Some n).
Proof.
  intros L. unfold IMP_change, default_rules. cbn [find_rule].
  replace (grep_gnl (S2L "*") n false (chr 42)) with (Ok true) by (symmetry; destruct n; reflexivity). cbn [rbind]. do 2 f_equal.
  assert (G : forall k m, (length m <= k)%nat -> transcode (repeat (chr 43) k) m k = m).
  { induction k as [|k IH]; intros m Hm; [destruct m; [reflexivity|cbn in Hm; lia]|]. cbn [repeat transcode]. change (code (chr 43) =? 45) with false. change (code (chr 43) =? 43) with true. cbv iota.
    destruct m as [|x m]; [reflexivity|]. rewrite IH; [reflexivity|cbn in Hm; lia]. }
  apply G, L.
Qed.

(** * The file *)
Lemma read_row_ok : forall l a r t0 w0, blanks a -> Forall (writable 15) l ->
  exists y w b, read_row (length l) (mkY (a ++ flat_map (print_val 15) l ++ r) t0 w0 false) = Done (map (kept 15) l, mkY (b ++ r) y w false) /\ blanks b.
Proof.
  induction l as [|x l IH]; intros a r t0 w0 B W.
  - exists t0, w0, a. split; [reflexivity|exact B].
  - inversion W as [|? ? Wx Wl]; subst x0 l0. cbn [length flat_map map read_row]. rewrite <- app_assoc.
    destruct (read_value IMP_KEYS 15 x a (flat_map (print_val 15) l ++ r) t0 w0 B) as (y & w & E); [cbn; intuition discriminate|exact Wx|].
    rewrite E. cbn [ibind].
    destruct (IH [SP] r y w (blanks1 SP eq_refl) Wl) as (y' & w' & b & F & G). cbn [app] in F. rewrite F. cbn [ibind]. exists y', w', b. split; [reflexivity|exact G].
Qed.
Section Import.
Variable rs : rules.
(** The name given to each variable. *)
Definition given (o : option str) (n : str) : Prop := IMP_change rs n = Ok o /\ match o with Some m => accepted VARIABLES m | None => True end.
Fixpoint puts_some {V} (l : list (option str * V)) (db : smap V) : smap V :=
  match l with [] => db | (Some n, v) :: l' => puts_some l' (M_Kdb.put n v db) | (None, _) :: l' => puts_some l' db end.
Lemma import_loop_ok nb : forall db news fuel acc y,
  Forall2 given news (map fst db) -> Forall (vec_good (Z.of_nat nb)) (map snd db) ->
  (forall m, In m (map fst db) -> accepted VARIABLES m /\ ~ In (chr 35) m /\ ~ In m IMP_KEYS) ->
  at_objects IMP_KEYS vec_body db y -> (length db < fuel)%nat ->
  import_loop fuel nb rs acc y = Done (puts_some (combine news (map (fun x => map (kept 15) (snd x)) db)) acc).
Proof.
  induction db as [|[n v] db IH]; intros news fuel acc y G V H A F; (destruct fuel as [|fuel]; [cbn in F; lia|]); cbn [import_loop].
  - destruct A as [y' A]. rewrite A. inversion G; subst. reflexivity.
  - unfold at_objects in A. rewrite A. cbn [ibind text]. cbn [map fst snd] in *. inversion G as [|o ? news' ? [Ch Ac] G']; subst. inversion V as [|? ? [L W] V']; subst.
    destruct (H n (or_introl eq_refl)) as (An & _ & _).
    assert (NA : str_eqb n (S2L "na") = false) by exact (not_na_name n An). rewrite NA.
    unfold vec_body at 1. rewrite <- app_assoc. cbn [app].
    change (SP :: flat_map (print_val 15) v ++ ?z) with ([SP] ++ flat_map (print_val 15) v ++ z).
    replace nb with (length v) at 1 by lia.
    destruct (read_row_ok v [SP] (LF :: file_of vec_body db) Y_WORD n (blanks1 SP eq_refl) W) as (ty & w & b & E & B). rewrite E. cbn [ibind].
    assert (L79 : firstn 79 n = n). { assert (Len : (length n <= 20)%nat) by (destruct An as (c & u & _ & Len & _); exact Len). apply firstn_all2. lia. }
    rewrite L79. unfold import_one. rewrite Ch. cbn [rbind].
    assert (A' : at_objects IMP_KEYS vec_body db (mkY (b ++ LF :: file_of vec_body db) ty w false)).
    { change (b ++ LF :: file_of vec_body db) with (b ++ [LF] ++ file_of vec_body db). rewrite app_assoc. apply (at_start VARIABLES IMP_KEYS vec_body).
      - apply Forall_app. split; [exact B|exact (blanks1 LF eq_refl)].
      - intros m Hm. apply H. right. exact Hm. }
    destruct o as [m|]; cbn [of_res ibind combine puts_some].
    + unfold set_var. rewrite (set_accepted VARIABLES acc m _ Ac). cbn [of_res ibind]. apply IH; [exact G'|exact V'|intros k Hk; apply H; right; exact Hk|exact A'|cbn in F; lia].
    + apply IH; [exact G'|exact V'|intros k Hk; apply H; right; exact Hk|exact A'|cbn in F; lia].
Qed.
Lemma find_puts_some {V} k (l : list (option str * V)) : forall db, M_Kdb.find k (puts_some l db) = match last_for k l with Some v => Some v | None => M_Kdb.find k db end.
Proof.
  induction l as [|[[n|] v] l IH]; intros db; cbn [puts_some last_for]; [reflexivity| |].
  - rewrite IH. destruct (last_for k l); [reflexivity|]. rewrite find_put. rewrite (str_eqb_sym k n). destruct (str_eqb n k); reflexivity.
  - rewrite IH. destruct (last_for k l); reflexivity.
Qed.
Lemma sorted_puts_some {V} (l : list (option str * V)) : forall db, sorted db -> sorted (puts_some l db).
Proof. induction l as [|[[n|] v] l IH]; intros db S; cbn [puts_some]; [exact S|apply IH, sorted_put, S|apply IH, S]. Qed.
Lemma keys_puts_some {V} (l : list (option str * V)) : forall db k, In k (keys (puts_some l db)) -> In k (keys db) \/ In (Some k) (map fst l).
Proof.
  induction l as [|[[n|] v] l IH]; intros db k H; cbn [puts_some map fst] in *; [left; exact H| |].
  - destruct (IH _ _ H) as [I|I]; [|right; right; exact I]. apply keys_put_in in I as [->|I]; [right; left; reflexivity|left; exact I].
  - destruct (IH _ _ H) as [I|I]; [left; exact I|right; right; exact I].
Qed.
End Import.
Lemma name_not_sample n : accepted VARIABLES n -> ~ In n IMP_KEYS.
Proof. intros A [<-|[]]. pose proof (accepted_key _ _ A) as K. discriminate K. Qed.
Lemma import_ascii_ok rulefile rs s db news : IMP_readrule rulefile = Ok rs -> database VARIABLES db -> no_sharp db ->
  sample_ok s -> 1000 <= year (s_start s) <= 9999 -> 1000 <= year (s_end s) <= 9999 ->
  Forall (vec_good (s_nb s)) (map snd db) -> Forall2 (given rs) news (map fst db) ->
  import_ascii rulefile (save_vars s db) = Done (mkVdb (Some s) (puts_some (combine news (map (fun x => map (kept 15) (snd x)) db)) [])).
Proof.
  intros RR [Srt A] N SO Y1 Y2 P G. unfold import_ascii. rewrite RR. cbn [of_res ibind].
  assert (PR : printable (file_of vec_body db)).
  { apply (file_printable VARIABLES); [exact A|]. eapply Forall_impl; [|exact P]. intros v (_ & W). unfold vec_body.
    apply printable_app; [|constructor; [right; reflexivity|constructor]]. induction W; [constructor|]. cbn [flat_map].
    apply printable_app; [apply val_printable; assumption|assumption]. }
  pose proof SO as (n & _ & V1 & V2 & _ & Nb).
  assert (PF : printable (S2L "sample " ++ period_to_string (s_start s) ++ SP :: period_to_string (s_end s) ++ [LF] ++ file_of vec_body db)).
  { apply printable_app; [repeat (constructor; [left; cbn; lia|]); constructor|]. apply printable_app; [apply period_printable; assumption|].
    constructor; [left; cbn; lia|]. apply printable_app; [apply period_printable; assumption|]. constructor; [right; reflexivity|exact PR]. }
  unfold opened. etransitivity; [apply (f_equal (fun f => ibind (lex IMP_KEYS (mkY f Y_NONE [] false)) _)); exact (delivered_printable _ 0 PF)|].
  match goal with |- context [lex IMP_KEYS (mkY (_ ++ ?x) _ _ _)] => set (R := x) in * end.
  replace (lex IMP_KEYS (mkY (S2L "sample " ++ R) Y_NONE [] false)) with (Done (L_KEY (S2L "sample"), mkY (SP :: R) Y_WORD (S2L "sample") false)) by reflexivity.
  cbn [ibind]. change (str_eqb (S2L "sample") (S2L "sample")) with true. cbv iota. unfold R. cbn [app].
  destruct (read_sample IMP_KEYS s [SP] (file_of vec_body db) Y_WORD (S2L "sample") (blanks1 SP eq_refl) SO ltac:(lia) ltac:(lia) Y2) as (w & E).
  cbn [app] in E. rewrite E. cbn [ibind].
  assert (NK : forall m, In m (map fst db) -> accepted VARIABLES m /\ ~ In (chr 35) m /\ ~ In m IMP_KEYS).
  { intros m Hm. rewrite Forall_forall in A. split; [apply A, Hm|]. split; [apply N, Hm|apply name_not_sample, A, Hm]. }
  rewrite (import_loop_ok rs (Z.to_nat (s_nb s)) db news); [reflexivity|exact G| |exact NK| |].
  - replace (Z.of_nat (Z.to_nat (s_nb s))) with (s_nb s) by lia. exact P.
  - apply (at_start VARIABLES IMP_KEYS vec_body db [LF]); [exact (blanks1 LF eq_refl)|exact NK].
  - unfold fuel_of. cbn [rest length]. pose proof (file_length vec_body (map (kept 15)) (read_vec (s_nb s)) db). lia.
Qed.
