(** Lemmas on the report engine: bounds on the number of steps, texts, expansion. *)
From Coq Require Import ZArith Ascii String List Bool Lia ZifyBool.
From Verif Require Import M_Base M_Names M_Lex M_Kdb M_Grep M_Report.
Import ListNotations.
Open Scope Z_scope.

(** * A larger bound gives the same outcome *)
Section Mono.
Context {W : Type}.
Notation M := (@M W).
Implicit Types (E : env W) (R : fns W).

Definition below {A} (m1 m2 : M A) : Prop := forall s, m1 s = Late \/ m1 s = m2 s.

Lemma below_refl A (m : M A) : below m m.
Proof. intros s; right; reflexivity. Qed.
Lemma below_late A (m : M A) : below late m.
Proof. intros s; left; reflexivity. Qed.
Lemma below_trans A (m1 m2 m3 : M A) : below m1 m2 -> below m2 m3 -> below m1 m3.
Proof.
  intros H1 H2 s. destruct (H1 s) as [H|H]; [left; exact H|].
  destruct (H2 s) as [H'|H']; [left | right]; congruence.
Qed.
Lemma below_bind A B (m1 m2 : M A) (k1 k2 : A -> M B) :
  below m1 m2 -> (forall a, below (k1 a) (k2 a)) -> below (bind m1 k1) (bind m2 k2).
Proof.
  intros Hm Hk s. unfold bind. destruct (Hm s) as [H|H]; rewrite H; [left; reflexivity|].
  destruct (m2 s); try (right; reflexivity). apply Hk.
Qed.

Definition fns_below R1 R2 : Prop :=
  (forall t, below (f_expand R1 t) (f_expand R2 t)) /\
  (forall n a c, below (f_exec R1 n a c) (f_exec R2 n a c)) /\
  (forall i, below (f_loop R1 i) (f_loop R2 i)) /\
  (forall l, below (f_back R1 l) (f_back R2 l)).

Ltac step :=
  match goal with
  | |- below ?m ?m => apply below_refl
  | |- below (bind _ _) (bind _ _) => apply below_bind; [|intro]
  | |- below (match ?x with _ => _ end) _ => destruct x
  | |- below (let '(_, _) := ?x in _) _ => destruct x
  end.
Ltac mono := repeat step; eauto using below_refl.

Section Pair.
Context (E : env W) (R1 R2 : fns W) (H : fns_below R1 R2).

Let Hx : forall t, below (f_expand R1 t) (f_expand R2 t) := proj1 H.
Let He : forall n a c, below (f_exec R1 n a c) (f_exec R2 n a c) := proj1 (proj2 H).
Let Hl : forall i, below (f_loop R1 i) (f_loop R2 i) := proj1 (proj2 (proj2 H)).
Let Hb : forall l, below (f_back R1 l) (f_back R2 l) := proj2 (proj2 (proj2 H)).

Lemma inner_below w : below (inner R1 w) (inner R2 w).
Proof using Hx. unfold inner; mono. Qed.
Lemma gmacro_below w : below (gmacro R1 w) (gmacro R2 w).
Proof using Hx.
  unfold gmacro. apply below_bind; [apply inner_below | intro; apply below_refl].
Qed.
Lemma eval_below t : below (eval E R1 t) (eval E R2 t).
Proof using He.
  unfold eval. destruct t as [|c t]; [apply below_refl|].
  destruct (is_dollar c); [|apply below_refl].
  destruct (get_arg0 _ _) as [name a']. mono.
Qed.
Lemma gcmd_below w : below (gcmd E R1 w) (gcmd E R2 w).
Proof using Hx He. unfold gcmd. apply below_bind; [apply inner_below | intro; apply eval_below]. Qed.
Lemma gfn_below w : below (gfn E R1 w) (gfn E R2 w).
Proof using Hx. unfold gfn. apply below_bind; [apply inner_below | intro; apply below_refl]. Qed.

Lemma scan_below n : forall s acc, below (scan E R1 n s acc) (scan E R2 n s acc).
Proof using Hx He.
  induction n as [|n IH]; intros s acc; cbn [scan]; [apply below_refl|].
  destruct s as [|c r]; [apply below_refl|].
  destruct (Ascii.eqb c PERCENT).
  { destruct r as [|d r']; [apply below_refl|]. destruct (Ascii.eqb d PERCENT); [apply IH|].
    destruct (modifier d) as [f|];
      (destruct (extract PERCENT _) as [[w r3]|]; [|apply IH];
       apply below_bind; [apply gmacro_below | intro; apply IH]). }
  destruct (Ascii.eqb c LBRACE).
  { destruct r as [|d r']; [apply below_refl|]. destruct (Ascii.eqb d LBRACE); [apply IH|].
    destruct (extract RBRACE _) as [[w r3]|]; [|apply IH].
    apply below_bind; [apply gcmd_below | intro; apply IH]. }
  destruct (Ascii.eqb c AT).
  { destruct r as [|d r']; [apply below_refl|]. destruct (Ascii.eqb d AT); [apply IH|].
    destruct (extractpar _ _ _ _) as [[w r3]|]; [|apply IH].
    apply below_bind; [apply gfn_below | intro o; destruct o; apply IH]. }
  apply below_bind; [apply below_refl | intro st].
  destruct (r_nopar st && Ascii.eqb c BACKQ); [|apply IH].
  destruct r as [|d r']; [apply below_refl|]. destruct (Ascii.eqb d BACKQ); [apply IH|].
  destruct (extract BACKQ _) as [[w r3]|]; apply IH.
Qed.
Lemma expand_below t : below (expand_F E R1 t) (expand_F E R2 t).
Proof using Hx He. apply scan_below. Qed.

Lemma exec_tbl_below i : below (exec_tbl R1 i) (exec_tbl R2 i).
Proof using Hl. unfold exec_tbl. mono. Qed.
Lemma report_line_below t : below (report_line E R1 t) (report_line E R2 t).
Proof using Hl. unfold report_line. mono. apply exec_tbl_below. Qed.
Lemma report_file_below t : below (report_file E R1 t) (report_file E R2 t).
Proof using Hl.
  unfold report_file. apply below_bind; [apply below_refl|intro].
  destruct (e_file _ _ _); [|apply below_refl]. mono. apply exec_tbl_below.
Qed.
Lemma report_exec_below a : below (report_exec E R1 a) (report_exec E R2 a).
Proof using Hl.
  unfold report_exec, with_words. destruct a; [apply below_refl|]. destruct (ainit t) as [[|w l]|];
    try apply below_refl. mono. apply report_file_below.
Qed.
Lemma next_index_below n : below (next_index E R1 n) (next_index E R2 n).
Proof using Hl Hx.
  unfold next_index. apply below_bind; [apply Hx|intro].
  destruct (atoi a); [|apply below_refl]. destruct (z =? 0); [apply below_refl|].
  mono; apply report_line_below.
Qed.
Lemma foreach_below a : below (foreach E R1 a) (foreach E R2 a).
Proof using Hl Hx.
  unfold foreach, with_text. destruct a; [apply below_refl|]. destruct (splitline t); try apply below_refl.
  repeat (apply below_bind; [first [apply report_line_below | apply next_index_below | apply below_refl]|intro]).
  apply below_refl.
Qed.
Lemma back_below l : below (back_F E R1 l) (back_F E R2 l).
Proof using Hl Hx Hb.
  unfold back_F. repeat (apply below_bind; [apply below_refl|intro]).
  destruct (Nat.leb _ _); [apply below_refl|].
  repeat (apply below_bind; [apply below_refl|intro]).
  destruct a2 as [line|]; [|apply below_refl].
  destruct (command_of line); [|apply Hb]. destruct (splitline s); try apply below_refl.
  destruct (str_eqb (to_lower name) (S2L "foreach")); [|apply Hb].
  destruct (vtoms _ _); [apply Hb|]. destruct (str_eqb l s0); [|apply Hb].
  apply below_bind; [apply next_index_below|intro; apply below_refl].
Qed.
Lemma next_below a : below (foreach_next E R1 a) (foreach_next E R2 a).
Proof using Hb.
  unfold foreach_next, with_text. destruct a; [apply below_refl|].
  repeat (apply below_bind; [apply below_refl|intro]).
  apply below_bind; [|intro; apply below_refl].
  destruct (vtomsq _ _) as [|w [|? ?]]; try apply below_refl. apply Hb.
Qed.
Lemma procexec_below a : below (procexec R1 a) (procexec R2 a).
Proof using Hl.
  unfold procexec, with_text. destruct a; [apply below_refl|]. destruct (splitline t); try apply below_refl.
  apply below_bind; [apply below_refl|intro]. destruct (proc_find _ _); [|apply below_refl].
  apply below_bind; [apply below_refl|intro]. destruct (_ <? _); [apply below_refl|].
  destruct (bindings _ _); [|apply below_refl].
  apply below_bind; [apply below_refl|intro]. destruct (_ <? _); [apply below_refl|].
  destruct (p_file p); [|apply below_refl].
  apply below_bind; [apply below_refl|intro].
  apply below_bind; [apply exec_tbl_below|intro]. apply below_refl.
Qed.
Lemma repeat_loop_below c n l : below (repeat_loop E R1 c n l) (repeat_loop E R2 c n l).
Proof using Hl.
  induction l as [|w l IH]; cbn [repeat_loop]; [apply below_refl|].
  apply below_bind; [apply below_refl|intro]. destruct (Nat.leb _ _); [apply below_refl|].
  apply below_bind; [apply report_line_below|intro]. destruct (_ =? _); [apply IH|apply below_refl].
Qed.
Lemma repeat_below a : below (repeat_cmd E R1 a) (repeat_cmd E R2 a).
Proof using Hl Hx.
  unfold repeat_cmd, with_text. destruct a; [apply below_refl|].
  apply below_bind; [apply Hx|intro]. destruct (extract QUOTE a) as [[? rest]|]; [|apply below_refl].
  destruct (extract QUOTE rest) as [[? ?]|]; (destruct (ainit _); [apply repeat_loop_below|apply below_refl]).
Qed.
Lemma exec_below n a c : below (exec_F E R1 n a c) (exec_F E R2 n a c).
Proof using Hl Hx Hb.
  unfold exec_F.
  repeat match goal with
  | |- below (if ?b then _ else _) (if ?b then _ else _) => destruct b
  end; try apply below_refl;
  first [apply repeat_below | apply foreach_below | apply next_below | apply procexec_below | apply report_exec_below].
Qed.
Lemma line_below i t : below (line_F E R1 i t) (line_F E R2 i t).
Proof using He.
  unfold line_F. destruct (is_command t); [|apply below_refl].
  destruct (command_of t); [|apply below_refl].
  destruct (splitline _); try apply below_refl.
  apply below_bind; [|intro; apply below_refl]. destruct name; [apply below_refl|apply He].
Qed.
Lemma loop_below i : below (loop_F E R1 i) (loop_F E R2 i).
Proof using Hl Hx He.
  unfold loop_F. apply below_bind; [apply below_refl|intro]. destruct a; [|apply below_refl].
  apply below_bind; [apply Hx|intro]. apply below_bind; [apply below_refl|intro].
  apply below_bind; [apply line_below|intro]. destruct a1; [apply below_refl|apply Hl].
Qed.
End Pair.

Lemma level_S E n : fns_below (level E n) (level E (S n)).
Proof.
  induction n as [|n IH].
  - repeat split; intros; apply below_late.
  - change (level E (S (S n))) with
      {| f_expand := expand_F E (level E (S n)); f_exec := exec_F E (level E (S n));
         f_loop := loop_F E (level E (S n)); f_back := back_F E (level E (S n)) |}.
    repeat split; intros; cbn [f_expand f_exec f_loop f_back].
    + change (f_expand (level E (S n)) t) with (expand_F E (level E n) t). apply expand_below; exact IH.
    + change (f_exec (level E (S n)) n0 a c) with (exec_F E (level E n) n0 a c). apply exec_below; exact IH.
    + change (f_loop (level E (S n)) i) with (loop_F E (level E n) i). apply loop_below; exact IH.
    + change (f_back (level E (S n)) l) with (back_F E (level E n) l). apply back_below; exact IH.
Qed.
Lemma level_below E n m : (n <= m)%nat -> fns_below (level E n) (level E m).
Proof.
  induction 1 as [|m _ IH]; [repeat split; intros; apply below_refl|].
  destruct (level_S E m) as (A & B & C & D). destruct IH as (A' & B' & C' & D').
  repeat split; intros; eapply below_trans; eauto.
Qed.
End Mono.

(** * Texts *)
Lemma span_app p s : fst (span p s) ++ snd (span p s) = s.
Proof.
  induction s as [|c s IH]; [reflexivity|]. cbn [span]. destruct (p c); [|reflexivity].
  destruct (span p s) as [a b]; cbn in *. f_equal; exact IH.
Qed.
Lemma span_all p a b : forallb p a = true -> match b with [] => True | c :: _ => p c = false end ->
  span p (a ++ b) = (a, b).
Proof.
  induction a as [|c a IH]; intros Ha Hb.
  - destruct b as [|c b]; [reflexivity|]. cbn. rewrite Hb. reflexivity.
  - cbn in Ha. apply andb_true_iff in Ha. destruct Ha as [Hc Ha].
    cbn [app span]. rewrite Hc, (IH Ha Hb). reflexivity.
Qed.
Lemma span_true p a : forallb p a = true -> span p a = (a, []).
Proof. intros H. rewrite <- (app_nil_r a) at 1. apply span_all; [exact H|exact I]. Qed.

Definition lacks (c : ascii) (s : str) : bool := forallb (fun d => negb (Ascii.eqb d c)) s.
Lemma extract_some ch w r : lacks ch w = true -> extract ch (w ++ ch :: r) = Some (w, r).
Proof.
  intros H. unfold extract. rewrite (span_all _ w (ch :: r) H).
  - reflexivity.
  - rewrite Ascii.eqb_refl. reflexivity.
Qed.
Lemma extract_none ch w : lacks ch w = true -> extract ch w = None.
Proof. intros H. unfold extract. rewrite (span_true _ w H). reflexivity. Qed.
Lemma extract_len ch s w r : extract ch s = Some (w, r) -> (length r < length s)%nat.
Proof.
  unfold extract. intros H. pose proof (span_app (fun c => negb (Ascii.eqb c ch)) s) as Ha.
  destruct (span _ s) as [a b]. cbn in Ha. subst s.
  destruct b; [discriminate|]. injection H as <- <-. rewrite app_length. cbn. lia.
Qed.
Lemma extractpar_len s : forall acc nb i w r, extractpar s acc nb i = Some (w, r) -> (length r < length s)%nat.
Proof.
  induction s as [|c s IH]; intros acc nb i w r H; [discriminate|].
  cbn [extractpar] in H. cbn [length].
  repeat match type of H with
  | (if ?b then _ else _) = _ => destruct b
  end; try discriminate; try (apply IH in H; lia).
  injection H as <- <-. lia.
Qed.

(** * Expansion *)
Section Expand.
Context {W : Type} (E : env W) (R : fns W).

Lemma scan_fuel n : forall m s acc st, (length s < n)%nat -> (length s < m)%nat ->
  scan E R n s acc st = scan E R m s acc st.
Proof.
  induction n as [|n IH]; intros m s acc st Hn Hm; [lia|].
  destruct m as [|m]; [lia|].
  cbn [scan]. destruct s as [|c r]; [reflexivity|]. cbn [length] in Hn, Hm.
  destruct (Ascii.eqb c PERCENT).
  { destruct r as [|d r']; [reflexivity|]. cbn [length] in *.
    destruct (Ascii.eqb d PERCENT); [apply IH; lia|].
    destruct (modifier d) as [f|].
    - destruct (extract PERCENT r') as [[w r3]|] eqn:Hx; [|apply IH; lia].
      apply extract_len in Hx. unfold bind. destruct (gmacro R w st); try reflexivity. apply IH; lia.
    - destruct (extract PERCENT (d :: r')) as [[w r3]|] eqn:Hx; [|apply IH; cbn [length]; lia].
      apply extract_len in Hx. cbn [length] in Hx.
      unfold bind. destruct (gmacro R w st); try reflexivity. apply IH; lia. }
  destruct (Ascii.eqb c LBRACE).
  { destruct r as [|d r']; [reflexivity|]. cbn [length] in *.
    destruct (Ascii.eqb d LBRACE); [apply IH; lia|].
    destruct (extract RBRACE (d :: r')) as [[w r3]|] eqn:Hx; [|apply IH; lia].
    apply extract_len in Hx. cbn [length] in Hx.
    unfold bind. destruct (gcmd E R w st); try reflexivity. apply IH; lia. }
  destruct (Ascii.eqb c AT).
  { destruct r as [|d r']; [reflexivity|]. cbn [length] in *.
    destruct (Ascii.eqb d AT); [apply IH; lia|].
    destruct (extractpar (d :: r') [] O false) as [[w r3]|] eqn:Hx; [|apply IH; cbn [length]; lia].
    apply extractpar_len in Hx. cbn [length] in Hx.
    unfold bind. destruct (gfn E R w st) as [[v|] st'| | | |]; try reflexivity; apply IH; cbn [length]; lia. }
  unfold bind, get. destruct (r_nopar st && Ascii.eqb c BACKQ); [|apply IH; lia].
  destruct r as [|d r']; [reflexivity|]. cbn [length] in *.
  destruct (Ascii.eqb d BACKQ); [apply IH; lia|].
  destruct (extract BACKQ (d :: r')) as [[w r3]|] eqn:Hx; [|apply IH; lia].
  apply extract_len in Hx. cbn [length] in Hx. apply IH; lia.
Qed.

(** The loop with enough steps. *)
Definition scan_all (s acc : str) : @M W str := scan E R (S (length s)) s acc.
Lemma scan_enough n s acc st : (length s < n)%nat -> scan E R n s acc st = scan_all s acc st.
Proof. intros H. apply scan_fuel; lia. Qed.
Lemma expand_all s st : expand_F E R s st = scan_all s [] st.
Proof. reflexivity. Qed.

Definition ordinary (nopar : bool) (c : ascii) : bool :=
  negb (special c) && negb (nopar && Ascii.eqb c BACKQ).

Lemma not_special c : special c = false ->
  Ascii.eqb c PERCENT = false /\ Ascii.eqb c LBRACE = false /\ Ascii.eqb c AT = false.
Proof.
  intros H. repeat split; apply Ascii.eqb_neq; intros ->; vm_compute in H; discriminate.
Qed.

Lemma scan_nil acc st : scan_all [] acc st = Done acc st.
Proof. reflexivity. Qed.
Lemma scan_lit c r acc st : ordinary (r_nopar st) c = true ->
  scan_all (c :: r) acc st = scan_all r (acc ++ [c]) st.
Proof.
  intros H. unfold ordinary in H. apply andb_true_iff in H. destruct H as [H1 H2].
  apply negb_true_iff in H1, H2. destruct (not_special c H1) as (A & B & C).
  unfold scan_all at 1. cbn [scan]. rewrite A, B, C. unfold bind, get. rewrite H2.
  apply scan_enough. cbn [length]. lia.
Qed.
Lemma scan_percent2 r acc st : scan_all (PERCENT :: PERCENT :: r) acc st = scan_all r (acc ++ [PERCENT]) st.
Proof. unfold scan_all at 1. cbn [scan]. change (Ascii.eqb PERCENT PERCENT) with true. cbv iota. apply scan_enough. cbn [length]; lia. Qed.
Lemma scan_brace2 r acc st : scan_all (LBRACE :: LBRACE :: r) acc st = scan_all r (acc ++ [LBRACE]) st.
Proof.
  unfold scan_all at 1. cbn [scan]. change (Ascii.eqb LBRACE PERCENT) with false.
  change (Ascii.eqb LBRACE LBRACE) with true. cbv iota. apply scan_enough. cbn [length]; lia.
Qed.
Lemma scan_at2 r acc st : scan_all (AT :: AT :: r) acc st = scan_all r (acc ++ [AT]) st.
Proof.
  unfold scan_all at 1. cbn [scan]. change (Ascii.eqb AT PERCENT) with false.
  change (Ascii.eqb AT LBRACE) with false.
  change (Ascii.eqb AT AT) with true. cbv iota. apply scan_enough. cbn [length]; lia.
Qed.
Lemma scan_backq r acc st : r_nopar st = true -> scan_all (BACKQ :: r) acc st =
  match r with
  | [] => Undefined
  | d :: r' =>
    if Ascii.eqb d BACKQ then scan_all r' (acc ++ [BACKQ]) st
    else match extract BACKQ r with
         | Some (w, r3) => scan_all r3 (acc ++ w) st
         | None => scan_all r' acc st
         end
  end.
Proof.
  intros H. unfold scan_all at 1. cbn [scan]. change (Ascii.eqb BACKQ PERCENT) with false.
  change (Ascii.eqb BACKQ LBRACE) with false. change (Ascii.eqb BACKQ AT) with false.
  change (Ascii.eqb BACKQ BACKQ) with true. unfold bind, get. rewrite H. cbn [andb].
  destruct r as [|d r']; [reflexivity|]. destruct (Ascii.eqb d BACKQ); [apply scan_enough; cbn [length]; lia|].
  destruct (extract BACKQ (d :: r')) as [[w r3]|] eqn:Hx.
  - apply extract_len in Hx. apply scan_enough. cbn [length] in *. lia.
  - apply scan_enough; cbn [length]; lia.
Qed.
Lemma scan_percent d r acc st : Ascii.eqb d PERCENT = false ->
  scan_all (PERCENT :: d :: r) acc st =
  let '(f, r2, last) := match modifier d with
                        | Some f => (f, r, d)
                        | None => (fun x : str => x, d :: r, PERCENT)
                        end in
  match extract PERCENT r2 with
  | Some (w, r3) =>
    bind (gmacro R w) (fun o =>
      scan_all r3 (acc ++ f (match o with Some v => v | None => PERCENT :: w ++ [PERCENT] end))) st
  | None => scan_all r2 (acc ++ [last]) st
  end.
Proof.
  intros H. unfold scan_all at 1. cbn [scan]. change (Ascii.eqb PERCENT PERCENT) with true. cbv iota.
  rewrite H.
  destruct (modifier d) as [f|].
  - destruct (extract PERCENT r) as [[w r3]|] eqn:Hx.
    + apply extract_len in Hx. unfold bind. destruct (gmacro R w st); try reflexivity.
      apply scan_enough. cbn [length] in *. lia.
    + apply scan_enough; cbn [length]; lia.
  - destruct (extract PERCENT (d :: r)) as [[w r3]|] eqn:Hx.
    + apply extract_len in Hx. unfold bind. destruct (gmacro R w st); try reflexivity.
      apply scan_enough. cbn [length] in *. lia.
    + apply scan_enough; cbn [length]; lia.
Qed.
Lemma scan_brace d r acc st : Ascii.eqb d LBRACE = false ->
  scan_all (LBRACE :: d :: r) acc st =
  match extract RBRACE (d :: r) with
  | Some (w, r3) => bind (gcmd E R w) (fun v => scan_all r3 (acc ++ v)) st
  | None => scan_all r acc st
  end.
Proof.
  intros H. unfold scan_all at 1. cbn [scan]. change (Ascii.eqb LBRACE PERCENT) with false.
  change (Ascii.eqb LBRACE LBRACE) with true. cbv iota. rewrite H.
  destruct (extract RBRACE (d :: r)) as [[w r3]|] eqn:Hx.
  - apply extract_len in Hx. unfold bind. destruct (gcmd E R w st); try reflexivity.
    apply scan_enough. cbn [length] in *. lia.
  - apply scan_enough; cbn [length]; lia.
Qed.
Lemma scan_at d r acc st : Ascii.eqb d AT = false ->
  scan_all (AT :: d :: r) acc st =
  match extractpar (d :: r) [] O false with
  | Some (w, r3) =>
    bind (gfn E R w) (fun o => match o with
                               | Some v => scan_all r3 (acc ++ v)
                               | None => scan_all (d :: r) (acc ++ [AT])
                               end) st
  | None => scan_all (d :: r) (acc ++ [AT]) st
  end.
Proof.
  intros H. unfold scan_all at 1. cbn [scan]. change (Ascii.eqb AT PERCENT) with false.
  change (Ascii.eqb AT LBRACE) with false.
  change (Ascii.eqb AT AT) with true. cbv iota. rewrite H.
  destruct (extractpar (d :: r) [] O false) as [[w r3]|] eqn:Hx.
  - apply extractpar_len in Hx. unfold bind.
    destruct (gfn E R w st) as [[v|] st'| | | |]; try reflexivity; apply scan_enough; cbn [length] in *; lia.
  - apply scan_enough; cbn [length]; lia.
Qed.
Lemma scan_lits t : forall r acc st, forallb (ordinary (r_nopar st)) t = true ->
  scan_all (t ++ r) acc st = scan_all r (acc ++ t) st.
Proof.
  induction t as [|c t IH]; intros r acc st H; [rewrite app_nil_r; reflexivity|].
  cbn in H. apply andb_true_iff in H. destruct H as [Hc Ht].
  cbn [app]. rewrite scan_lit by exact Hc. rewrite IH by exact Ht. rewrite <- app_assoc. reflexivity.
Qed.
Lemma inner_plain w st : existsb special w = false -> inner R w st = Done w st.
Proof. intros H. unfold inner. rewrite H. reflexivity. Qed.
End Expand.
