(** Lemmas on the ASCII files of tables: the text of a table as a list of tokens, and the reading of cells and lines. *)
From Coq Require Import ZArith Ascii String List Bool Lia Sorted Floats.SpecFloat.
From Verif Require Import M_Base M_Time M_Names M_Lex M_Compile M_Bytes M_Exec M_Double M_Decimal M_Kdb M_Ascii M_AsciiEqs M_AsciiTbl S_Time S_Names
  S_Ascii S_AsciiEqs S_AsciiTbl L_Time L_Names L_Kdb L_Decimal L_Round L_Round2 L_Round3 L_Round4 L_Ascii L_Ascii3 L_AsciiEqs.
Import ListNotations.
Open Scope Z_scope.

(** * Tokens with the blanks around them *)
Record item := mkI { pre : str; itext : str; post : str; itok : lexed; ity : ytype; iw : str }.
Definition shown (i : item) : str := pre i ++ itext i ++ post i.
Definition good (i : item) : Prop :=
  blanks (pre i) /\ blanks (post i) /\ itext i <> [] /\ itok i <> L_TYPE Y_WORD /\ itok i <> L_TYPE Y_EOF /\
  (forall a r t0 w0, blanks a -> lex TABLE (mkY (a ++ itext i ++ post i ++ r) t0 w0 false) = Done (itok i, mkY (post i ++ r) (ity i) (iw i) false)) /\
  (forall r, lex TABLE (mkY r (ity i) (iw i) true) = Done (itok i, mkY r (ity i) (iw i) false)) /\ printable (shown i).
Definition at_items (is : list item) (tail : str) (y : yy) : Prop :=
  (exists b t w, blanks b /\ y = mkY (b ++ flat_map shown is ++ tail) t w false) \/
  (exists i is', is = i :: is' /\ y = mkY (post i ++ flat_map shown is' ++ tail) (ity i) (iw i) true).
Lemma blanks_app a b : blanks a -> blanks b -> blanks (a ++ b).
Proof. intros A B. apply Forall_app. split; assumption. Qed.
Lemma items_length is tail : Forall good is -> (length is <= length (flat_map shown is ++ tail))%nat.
Proof.
  induction is as [|i is IH]; intros G; [cbn; lia|]. inversion G as [|? ? Gi Gis]; subst. specialize (IH Gis). destruct Gi as (_ & _ & N & _).
  cbn [flat_map length]. unfold shown at 1. rewrite !app_length in *. destruct (itext i); [congruence|]. cbn [length]. lia.
Qed.
Lemma step i is tail y : good i -> Forall good is -> at_items (i :: is) tail y ->
  exists y1, lex TABLE y = Done (itok i, y1) /\ text y1 = iw i /\ at_items is tail y1 /\ at_items (i :: is) tail (unread y1) /\
    (length is <= length (rest y1))%nat.
Proof.
  intros (P & Q & N & _ & _ & F & R & _) G [(b & t & w & B & ->)|(j & js & E & ->)].
  - exists (mkY (post i ++ flat_map shown is ++ tail) (ity i) (iw i) false).
    cbn [flat_map]. unfold shown at 1. split; [|split; [reflexivity|]].
    { pose proof (F (b ++ pre i) (flat_map shown is ++ tail) t w (blanks_app _ _ B P)) as X. rewrite <- !app_assoc in *. exact X. }
    split; [left; exists (post i), (ity i), (iw i); split; [exact Q|reflexivity]|].
    split; [right; exists i, is; split; reflexivity|].
    cbn [rest]. pose proof (items_length is tail G). rewrite app_length. lia.
  - injection E as <- <-. exists (mkY (post i ++ flat_map shown is ++ tail) (ity i) (iw i) false).
    split; [apply R|]. split; [reflexivity|]. split; [left; exists (post i), (ity i), (iw i); split; [exact Q|reflexivity]|].
    split; [right; exists i, is; split; reflexivity|].
    cbn [rest]. pose proof (items_length is tail G). rewrite app_length. lia.
Qed.

(** Keywords, signs, strings, numbers. *)
Definition gap (p : str) : Prop := p = [] \/ p = [SP] \/ p = [LF].
Lemma gap_blanks p : gap p -> blanks p.
Proof. intros [-> | [-> | ->]]; repeat constructor. Qed.
Lemma gap_printable p : gap p -> printable p.
Proof. intros [-> | [-> | ->]]; repeat constructor; cbn; lia. Qed.
Ltac gp := unfold gap; auto.
Lemma shown_printable i : gap (pre i) -> gap (post i) -> printable (itext i) -> printable (shown i).
Proof. intros A B C. unfold shown. apply printable_app; [apply gap_printable, A|]. apply printable_app; [exact C|apply gap_printable, B]. Qed.

Definition K (p : str) (w : string) : item := mkI p (S2L w) [SP] (L_KEY (S2L w)) Y_WORD (S2L w).
Definition kword (w : string) : Prop :=
  In (S2L w) TABLE /\ forallb (fun c => 32 <=? code c) (S2L w) = true /\ exists c u, S2L w = c :: u /\ word_first c = true /\ forallb is_word_char u = true /\ Z.of_nat (length (c :: u)) < 40000.
Lemma good_K p w : gap p -> kword w -> good (K p w).
Proof.
  intros P (I & PW & c & u & E & F & W & L). unfold K. split; [apply gap_blanks, P|]. split; [repeat constructor|]. cbn [itext itok ity iw post pre].
  split; [rewrite E; discriminate|]. split; [discriminate|]. split; [discriminate|]. split; [|split].
  - intros a r t0 w0 B. rewrite E in *. apply lex_key; try assumption. intros x v Ex. injection Ex as <- _. reflexivity.
  - intros r. unfold lex. cbn [lex_loop]. unfold yread. cbn [reread typ rest text ibind]. rewrite existsb_in by exact I. reflexivity.
  - apply shown_printable; [exact P|gp|]. cbn [itext]. clear -PW. apply Forall_forall. intros x Hx. rewrite forallb_forall in PW. specialize (PW x Hx). lia.
Qed.
Ltac is_kword := split; [cbn; tauto|split; [reflexivity|eexists _, _; repeat split]].
Definition Sg (p : str) (z : Z) (q : str) : item := mkI p [chr z] q (L_KEY [chr z]) Y_SPECIAL [chr z].
Lemma good_Sg p z q : gap p -> gap q -> In z [45; 123] -> good (Sg p z q).
Proof.
  intros P Q I. split; [apply gap_blanks, P|]. split; [apply gap_blanks, Q|]. cbn [itext itok ity iw post pre Sg]. split; [discriminate|]. split; [discriminate|]. split; [discriminate|].
  split; [|split].
  - intros a r t0 w0 B. unfold lex. cbn [lex_loop]. unfold yread. cbn [reread rest]. rewrite (skip_blanks a _ B).
    destruct I as [<- | [<- | []]]; reflexivity.
  - intros r. destruct I as [<- | [<- | []]]; reflexivity.
  - apply shown_printable; [exact P|exact Q|]. cbn [itext Sg]. destruct I as [<- | [<- | []]]; repeat constructor; cbn; lia.
Qed.
(** The end of a table, with the comment before it. *)
Definition END : item := mkI [LF] (S2L "/* END OF TABLE */" ++ [LF; chr 125]) [LF] (L_KEY [chr 125]) Y_SPECIAL [chr 125].
Lemma good_END : good END.
Proof.
  split; [repeat constructor|]. split; [repeat constructor|]. cbn [itext itok ity iw post pre END]. split; [discriminate|]. split; [discriminate|]. split; [discriminate|].
  split; [|split; [reflexivity|apply shown_printable; [gp|gp|repeat constructor; cbn; lia]]].
  intros a r t0 w0 B. unfold lex. cbn [rest]. set (n := length _).
  assert (Hn : exists n', n = S n') by (unfold n; rewrite app_length; cbn; rewrite Nat.add_succ_r; eexists; reflexivity).
  destruct Hn as [n' ->]. cbn [lex_loop]. unfold yread at 1. cbn [reread rest]. rewrite (skip_blanks a _ B). reflexivity.
Qed.
Definition Q (t : str) : item := mkI [] (quoted t) [SP] (L_TYPE Y_STRING) Y_STRING t.
Lemma good_Q t : printable t -> no_control t -> Z.of_nat (length t) < 40000 -> good (Q t).
Proof.
  intros P N L. split; [constructor|]. split; [repeat constructor|]. cbn [itext itok ity iw post pre Q]. split; [discriminate|]. split; [discriminate|]. split; [discriminate|].
  split; [|split; [reflexivity|]]; [intros a r t0 w0 B; apply lex_string; assumption|].
  apply shown_printable; [gp|gp|]. cbn [itext Q]. unfold quoted. constructor; [left; cbn; lia|]. apply printable_app; [apply printable_escaped, P|repeat constructor; cbn; lia].
Qed.
Lemma number_end_blank q r : isspace q = true -> number_end ([q] ++ r).
Proof. intros S c u E. injection E as <- _. unfold isspace in S. unfold isdigit. lia. Qed.
Definition N (q : ascii) (z : Z) : item := mkI [] (to_string z) [q] (L_TYPE Y_LONG) Y_LONG (to_string z).
Lemma good_N q z : gap [q] -> 0 <= z < 10 ^ 9 -> good (N q z).
Proof.
  intros Sq H. split; [constructor|]. split; [apply gap_blanks, Sq|]. cbn [itext itok ity iw post pre N].
  destruct (dec_nt z ltac:(lia)) as (O1 & T1 & T1'). pose proof (to_string_short z 9 H ltac:(lia)) as L.
  destruct (to_string_spec z ltac:(lia)) as (DG & _ & NE & _).
  split; [exact NE|]. split; [discriminate|]. split; [discriminate|]. split; [|split; [reflexivity|apply shown_printable; [gp|exact Sq|apply digits_printable, DG]]].
  intros a r t0 w0 B.
  assert (I : is_long (mkNT (to_string z) [] None) = true) by (unfold is_long; cbn [fp ep]; rewrite T1'; lia).
  pose proof (lex_number TABLE a _ ([q] ++ r) t0 w0 B O1 ltac:(rewrite T1'; lia)) as X. rewrite T1, T1', I in X. apply X.
  apply number_end_blank. apply gap_blanks in Sq. inversion Sq; assumption.
Qed.
(** The text of a limit. *)
Definition frac6 (r : Z) : str := zeros (6 - Z.of_nat (length (to_string (r mod 10 ^ 6)))) ++ to_string (r mod 10 ^ 6).
Definition nt6 (r : Z) : number_text := mkNT (to_string (r / 10 ^ 6)) (frac6 r) None.
Lemma frac6_ok r : digits (frac6 r) /\ length (frac6 r) = 6%nat /\ value_of (frac6 r) = r mod 10 ^ 6.
Proof.
  pose proof (Z.mod_pos_bound r (10 ^ 6) ltac:(lia)) as M. destruct (to_string_spec (r mod 10 ^ 6) ltac:(lia)) as (D & V & NE & _).
  pose proof (to_string_short (r mod 10 ^ 6) 6 M ltac:(lia)) as L. unfold frac6, zeros. set (k := Z.to_nat _).
  assert (Dz : digits (repeat (chr 48) k)) by (clear; induction k; [constructor|constructor; [reflexivity|assumption]]).
  split; [apply Forall_app; split; assumption|]. split; [rewrite app_length, repeat_length; unfold k; lia|].
  rewrite value_app by assumption. rewrite value_zeros, V. lia.
Qed.
Lemma nt6_ok r : 0 <= r -> nt_ok (nt6 r) /\ nt_mant (nt6 r) = r /\ nt_exp (nt6 r) = -6 /\
  (forall e, text_of e (nt6 r) = to_string (r / 10 ^ 6) ++ chr 46 :: frac6 r) /\ is_long (nt6 r) = false.
Proof.
  intros H. destruct (frac6_ok r) as (D & L & V). assert (Q : 0 <= r / 10 ^ 6) by (apply Z.div_pos; lia).
  destruct (to_string_spec (r / 10 ^ 6) Q) as (D' & V' & NE & _). unfold nt6, nt_ok, nt_mant, nt_exp, text_of, is_long. cbn [ip fp ep exp_part exp_value].
  split; [auto|]. split; [rewrite value_app, V, V', L by assumption; change (10 ^ Z.of_nat 6) with (10 ^ 6); rewrite (Z.div_mod r (10 ^ 6)) at 3 by lia; lia|].
  split; [rewrite L; reflexivity|]. destruct (frac6 r) eqn:E; [discriminate L|]. split; [|reflexivity]. intros e. cbn [frac_text]. rewrite app_nil_r. reflexivity.
Qed.
Definition Rl (r : Z) : item := mkI [] (text_of (chr 101) (nt6 r)) [SP] (L_TYPE Y_DOUBLE) Y_DOUBLE (text_of (chr 69) (nt6 r)).
Lemma good_Rl r : 0 <= r <= 10 ^ 44 -> good (Rl r).
Proof.
  intros H. destruct (nt6_ok r ltac:(lia)) as (OK & _ & _ & T & I). destruct (frac6_ok r) as (_ & L6 & _).
  split; [constructor|]. split; [repeat constructor|]. cbn [itext itok ity iw post pre Rl].
  split; [rewrite T; destruct (to_string (r / 10 ^ 6)); discriminate|]. split; [discriminate|]. split; [discriminate|]. split; [|split; [reflexivity|apply shown_printable; [gp|gp|apply text_printable, OK]]].
  intros a s t0 w0 B. pose proof (lex_number TABLE a (nt6 r) ([SP] ++ s) t0 w0 B OK) as X. rewrite I in X. apply X; [|apply number_end_sp].
  rewrite T, app_length. cbn [length]. rewrite L6.
  pose proof (to_string_short (r / 10 ^ 6) 39) as S. assert (0 <= r / 10 ^ 6 < 10 ^ 39) by (split; [apply Z.div_pos; lia|apply Z.div_lt_upper_bound; lia]). lia.
Qed.
