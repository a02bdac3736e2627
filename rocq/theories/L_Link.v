(** Reading instructions back and linking to a sample. *)
From Coq Require Import ZArith Ascii String List Bool Lia.
From Verif Require Import M_Base M_Time M_Names M_Lex M_Compile M_Bytes M_Exec S_Lec S_Eval L_Compile L_Bytes.
Import ListNotations.
Open Scope Z_scope.
Local Arguments Z.add : simpl never.
Local Arguments Z.sub : simpl never.
Local Arguments Z.mul : simpl never.
Local Arguments Z.of_nat : simpl never.
Local Arguments Z.div : simpl never.
Local Arguments Z.modulo : simpl never.
Local Arguments Z.pow : simpl never.
Local Arguments le : simpl never.

Lemma take_app x rest n : n = length x -> take n (x ++ rest) = Ok x.
Proof.
  intros ->. unfold take. rewrite app_length.
  replace (length x + length rest <? length x)%nat with false by (symmetry; apply Nat.ltb_ge; lia).
  rewrite firstn_len by reflexivity. reflexivity.
Qed.
Lemma short_le z : short_range z -> signed_le (le 2 z) = z.
Proof. intros H. apply signed_le_le; [lia|]. change (256 ^ Z.of_nat 2) with 65536. unfold short_range in H. lia. Qed.
Lemma int_le z : int_range z -> signed_le (le 4 z) = z.
Proof. intros H. apply signed_le_le; [lia|]. change (256 ^ Z.of_nat 4) with 4294967296. unfold int_range in H. lia. Qed.
Lemma long_le z : 0 <= z < 1000000000 -> signed_le (le 8 z) = z.
Proof. intros H. apply signed_le_le; [lia|]. change (256 ^ Z.of_nat 8) with 18446744073709551616. lia. Qed.
Lemma chr_code c : chr (code c) = c.
Proof. unfold chr, code. rewrite N2Z.id. apply ascii_N_embedding. Qed.

Lemma fetch_long n rest : 0 <= n < 1000000000 -> fetch ((L_LCONST :: le 8 n) ++ rest) = Ok (I_LONG n, 9).
Proof.
  intros H. unfold fetch. cbn [app]. change (L_LCONST =? L_LCONST) with true. cbv iota.
  rewrite app_comm_cons, take_app by (cbn [length]; rewrite le_length; reflexivity). cbn [rbind skipn].
  rewrite long_le by assumption. reflexivity.
Qed.
Lemma fetch_real b rest : length b = 8%nat -> fetch ((L_DCONST :: b) ++ rest) = Ok (I_REAL b, 9).
Proof.
  intros H. unfold fetch. cbn [app]. change (L_DCONST =? L_LCONST) with false. change (L_DCONST =? L_DCONST) with true.
  cbv iota. rewrite app_comm_cons, take_app by (cbn [length]; rewrite H; reflexivity). reflexivity.
Qed.
Lemma fetch_coef pos rest : int_range pos -> fetch ((L_COEF :: le 4 pos) ++ rest) = Ok (I_COEF pos, 5).
Proof.
  intros H. unfold fetch. cbn [app]. change (L_COEF =? L_LCONST) with false. change (L_COEF =? L_DCONST) with false.
  change (L_COEF =? L_COEF) with true.
  cbv iota. rewrite app_comm_cons, take_app by (cbn [length]; rewrite le_length; reflexivity).
  cbn [rbind skipn]. rewrite int_le by assumption. reflexivity.
Qed.
Lemma long_le2 z : int_range z -> signed_le (le 8 z) = z.
Proof. intros H. apply signed_le_le; [lia|]. change (256 ^ Z.of_nat 8) with 18446744073709551616. unfold int_range in H. lia. Qed.
Definition period_fits (p : period) : Prop := int_range (year p) /\ int_range (step p).
Lemma read_period_bytes p rest : period_fits p -> read_period (period_bytes p ++ rest) = p.
Proof.
  intros [Y S]. unfold read_period, period_bytes. rewrite <- !app_assoc.
  rewrite firstn_len by (rewrite le_length; reflexivity). rewrite skipn_len by (rewrite le_length; reflexivity).
  rewrite firstn_len by (rewrite le_length; reflexivity). rewrite !long_le2 by assumption.
  rewrite app_nth2 by (rewrite le_length; lia). rewrite le_length.
  rewrite app_nth2 by (rewrite le_length; lia). rewrite le_length. cbn [Nat.sub app nth]. rewrite chr_code.
  destruct p; reflexivity.
Qed.
Lemma period_length p : length (period_bytes p) = 24%nat.
Proof. unfold period_bytes. rewrite !app_length, !le_length. reflexivity. Qed.
Lemma fetch_period p pos rest : period_fits p -> short_range pos ->
  fetch ((L_PERIOD :: period_bytes p ++ le 2 pos) ++ rest) = Ok (I_PERIOD p pos, 27).
Proof.
  intros H S. unfold fetch. cbn [app]. change (L_PERIOD =? L_LCONST) with false. change (L_PERIOD =? L_DCONST) with false.
  change (L_PERIOD =? L_COEF) with false. change (L_PERIOD =? L_PERIOD) with true.
  cbv iota. rewrite app_comm_cons, take_app
    by (cbn [length]; rewrite app_length, le_length, period_length; reflexivity).
  cbn [rbind]. change (skipn 1 (L_PERIOD :: ?x)) with x. rewrite read_period_bytes by assumption.
  change (skipn 25 (L_PERIOD :: ?x)) with (skipn 24 x).
  rewrite skipn_len by (rewrite period_length; reflexivity). rewrite short_le by assumption. reflexivity.
Qed.
Lemma fetch_var pos lag ref p rest : int_range pos -> short_range lag -> short_range ref -> period_fits p ->
  fetch ((L_VAR :: le 4 pos ++ le 2 lag ++ le 2 ref ++ period_bytes p) ++ rest) = Ok (I_VAR pos lag ref p, 33).
Proof.
  intros P S S' H. unfold fetch. cbn [app]. change (L_VAR =? L_LCONST) with false. change (L_VAR =? L_DCONST) with false.
  change (L_VAR =? L_COEF) with false. change (L_VAR =? L_PERIOD) with false. change (L_VAR =? L_VAR) with true.
  cbn [orb]. rewrite app_comm_cons, take_app
    by (cbn [length]; rewrite !app_length, !le_length, period_length; reflexivity).
  cbn [rbind].
  change (skipn 1 (L_VAR :: ?x)) with x. change (skipn 5 (L_VAR :: ?x)) with (skipn 4 x).
  replace (skipn 7 (L_VAR :: le 4 pos ++ le 2 lag ++ le 2 ref ++ period_bytes p)) with (le 2 ref ++ period_bytes p)
    by (change (skipn 7 (L_VAR :: ?x)) with (skipn 6 x);
        rewrite app_assoc, skipn_len by (rewrite app_length, !le_length; reflexivity); reflexivity).
  replace (skipn 9 (L_VAR :: le 4 pos ++ le 2 lag ++ le 2 ref ++ period_bytes p)) with (period_bytes p)
    by (change (skipn 9 (L_VAR :: ?x)) with (skipn 8 x);
        rewrite !app_assoc, skipn_len by (rewrite !app_length, !le_length; reflexivity); reflexivity).
  rewrite firstn_len by (rewrite le_length; reflexivity). rewrite skipn_len by (rewrite le_length; reflexivity).
  rewrite !firstn_len by (rewrite le_length; reflexivity).
  rewrite int_le, !short_le by assumption. rewrite <- (app_nil_r (period_bytes p)), read_period_bytes by assumption.
  reflexivity.
Qed.
Lemma fetch_fn f nb rest : fetch (fn_code f :: nb :: rest) = Ok (I_FN f nb, 2).
Proof. destruct f; reflexivity. Qed.
Lemma fetch_op o rest : fetch (op_code o :: rest) = Ok (I_OP o, 1).
Proof. destruct o; reflexivity. Qed.
Lemma fetch_val v rest : fetch (val_code v :: rest) = Ok (I_VAL v, 1).
Proof. destruct v; reflexivity. Qed.
Lemma fetch_tfn f nb l rest : short_range l -> fetch (tfn_code f :: nb :: le 2 l ++ rest) = Ok (I_TFN f nb l, 4).
Proof.
  intros H.
  assert (G : take 4 (tfn_code f :: nb :: le 2 l ++ rest) = Ok (tfn_code f :: nb :: le 2 l)).
  { change (tfn_code f :: nb :: le 2 l ++ rest) with ((tfn_code f :: nb :: le 2 l) ++ rest). apply take_app.
    cbn [length]. rewrite le_length. reflexivity. }
  unfold fetch. rewrite G. cbn [rbind nth]. change (skipn 2 (?a :: ?b :: ?x)) with x. rewrite short_le by assumption.
  destruct f; reflexivity.
Qed.
Lemma fetch_mtfn f nb nv l rest : short_range l ->
  fetch (mtfn_code f :: nb :: nv :: le 2 l ++ rest) = Ok (I_MTFN f nb nv l, 5).
Proof.
  intros H.
  assert (G : take 5 (mtfn_code f :: nb :: nv :: le 2 l ++ rest) = Ok (mtfn_code f :: nb :: nv :: le 2 l)).
  { change (mtfn_code f :: nb :: nv :: le 2 l ++ rest) with ((mtfn_code f :: nb :: nv :: le 2 l) ++ rest). apply take_app.
    cbn [length]. rewrite le_length. reflexivity. }
  unfold fetch. rewrite G. cbn [rbind nth]. change (skipn 3 (?a :: ?b :: ?c :: ?x)) with x. rewrite short_le by assumption.
  destruct f; reflexivity.
Qed.

(** * What linking and execution need of a tree *)
Section Link.
Context {A : arith} (E : env A) (real_bytes : str -> list Z) (names : list str).
Let start := s_start (smp E).

(** Positions of names are known and fit an int. *)
Fixpoint named (e : ex) : Prop :=
  match e with
  | ELeaf (LVar n) | ELeaf (LCoef n) => exists i, pos_of names n = Z.of_nat i /\ nth_error names i = Some n /\ Z.of_nat i < 2147483648
  | ELeaf _ => True
  | EPar e | ESfx e _ | EPre _ e => named e
  | EApp _ args _ => fold_right and True (map named args)
  | EBin _ a b => named a /\ named b
  end.
(** The series of functions of several series are not linked. *)
Fixpoint linkable (ms : list suffix) (e : ex) : Prop :=
  match e with
  | ELeaf _ => True
  | EPar e => linkable ms e
  | ESfx e s => linkable (s :: ms) e
  | EPre f e => linkable ms e /\ match f with MTFN _ => undated ms e = true | _ => True end
  | EApp f args sfx =>
    fold_right and True (zip (fun e m => linkable m e) args (mods ms sfx (length args))) /\
    match f with
    | MTFN _ => let k := (length args - bodies f)%nat in
                fold_right and True (zip (fun e m => undated m e = true) (skipn k args) (skipn k (mods ms sfx (length args))))
    | _ => True
    end
  | EBin _ a b => linkable ms a /\ linkable ms b
  end.

Notation bytes := (bytes real_bytes names start).
Notation fits := (fits E real_bytes).

Lemma zip_ext {X Y V} (f g : X -> Y -> V) l m : fold_right and True (zip (fun x y => f x y = g x y) l m) -> zip f l m = zip g l m.
Proof.
  revert m. induction l as [|x l IH]; intros [|y m]; cbn; auto. intros [H K]. rewrite H, IH by assumption. reflexivity.
Qed.
Lemma forallb_zip {X Y} (f : X -> Y -> bool) l m :
  forallb (fun b => b) (zip f l m) = true <-> fold_right and True (zip (fun x y => f x y = true) l m).
Proof.
  revert m. induction l as [|x l IH]; intros [|y m]; cbn; try tauto. rewrite andb_true_iff, IH. tauto.
Qed.
Lemma undated_bytes e : forall ms, undated ms e = true -> bytes true ms e = bytes false ms e.
Proof.
  induction e using ex_ind2; intros ms U; cbn [L_Bytes.bytes undated] in *; auto.
  - destruct l; try reflexivity; [|discriminate]. cbn [leaf_bytes]. destruct (placed ms) as [lag [p|]]; [discriminate|].
    apply Z.eqb_eq in U. subst. reflexivity.
  - rewrite IHe by assumption. reflexivity.
  - f_equal. apply zip_ext. apply forallb_zip in U. revert U. apply zip_impl.
    rewrite Forall_forall in *. intros e I m U. apply H; auto.
  - apply andb_true_iff in U. destruct U. rewrite IHe1, IHe2 by assumption. reflexivity.
Qed.

(** [links x y]: linking turns the piece [x] of the code into [y]. *)
Definition links (x y : list Z) : Prop :=
  len x = len y /\
  forall pre post e R, len pre + len x <= e ->
  (forall n, e - (len pre + len x) < Z.of_nat n -> link n start (pre ++ y ++ post) (len pre + len x) e = R) ->
  forall n, e - len pre < Z.of_nat n -> link n start (pre ++ x ++ post) (len pre) e = R.

Lemma to_nat_len l : Z.to_nat (len l) = length l.
Proof. unfold len. apply Nat2Z.id. Qed.
Lemma links_nil : links [] [].
Proof. split; [reflexivity|]. intros. rewrite len_nil, Z.add_0_r in *. apply H0. lia. Qed.
Lemma links_app x y x' y' : links x y -> links x' y' -> links (x ++ x') (y ++ y').
Proof.
  intros [L H] [L' H']. split; [rewrite !len_app; lia|]. intros pre post e R B K n N. rewrite len_app in *.
  rewrite <- app_assoc. apply H; [pose proof (len_pos x'); lia| |exact N]. clear n N.
  intros n N. rewrite app_assoc.
  pose proof (len_app pre y) as LP. rewrite <- L in LP. rewrite <- LP. apply H'; [rewrite LP; lia| |rewrite LP; lia].
  clear n N. intros n N. rewrite LP in *. rewrite <- app_assoc. replace (len pre + len x + len x') with (len pre + (len x + len x')) by lia.
  rewrite <- app_assoc in K. apply K. lia.
Qed.
(** One instruction left as it is. *)
Lemma links_plain x i : (forall rest, fetch (x ++ rest) = Ok (i, len x)) -> 0 < len x ->
  match i with I_FN _ _ | I_OP _ | I_VAL _ | I_REAL _ | I_LONG _ | I_COEF _ => True | _ => False end -> links x x.
Proof.
  intros F P I. split; [reflexivity|]. intros pre post e R B K n N.
  destruct n as [|n]; [lia|]. cbn [link]. replace (e <=? len pre) with false by (symmetry; apply Z.leb_gt; lia).
  rewrite to_nat_len, skipn_len by reflexivity. rewrite F. cbn [rbind].
  destruct i; try contradiction; apply K; lia.
Qed.
Lemma links_concat l l' : Forall2 links l l' -> links (concat l) (concat l').
Proof. induction 1; [apply links_nil|]. cbn [concat]. apply links_app; assumption. Qed.

Lemma put_mid pre a b b' c post : length b = length b' ->
  put (pre ++ (a ++ b ++ c) ++ post) (len pre + len a) b' = pre ++ (a ++ b' ++ c) ++ post.
Proof.
  intros L. unfold put. rewrite <- len_app, to_nat_len. rewrite <- !app_assoc, (app_assoc pre).
  rewrite firstn_len by reflexivity. rewrite <- L, <- app_length. rewrite (app_assoc (pre ++ a) b), skipn_len by reflexivity.
  rewrite <- !app_assoc. reflexivity.
Qed.
Lemma links_tfn f nb x y : links x y -> len x < 32768 ->
  links ([tfn_code f; nb] ++ with_len x) ([tfn_code f; nb] ++ with_len y).
Proof.
  intros [L H] S. pose proof (len_pos x) as P. unfold with_len. rewrite <- L.
  split; [rewrite !len_app, L; reflexivity|]. intros pre post e R B K n N.
  assert (T : len ([tfn_code f; nb] ++ le 2 (len x) ++ x) = 4 + len x) by (rewrite !len_app, len_le; change (len [tfn_code f; nb]) with 2; lia).
  rewrite T in *.
  destruct n as [|n]; [lia|]. cbn [link]. replace (e <=? len pre) with false by (symmetry; apply Z.leb_gt; lia).
  rewrite to_nat_len, skipn_len by reflexivity. cbn [app]. rewrite <- app_assoc, fetch_tfn by (unfold short_range; lia).
  cbn [rbind]. replace (len x <? 0) with false by (symmetry; apply Z.ltb_ge; lia).
  set (h := [tfn_code f; nb] ++ le 2 (len x)).
  assert (Lh : len (pre ++ h) = len pre + 4) by (unfold h; rewrite !len_app, len_le; change (len [tfn_code f; nb]) with 2; lia).
  replace (pre ++ tfn_code f :: nb :: le 2 (len x) ++ x ++ post) with ((pre ++ h) ++ x ++ post)
    by (unfold h; rewrite <- !app_assoc; reflexivity).
  rewrite <- Lh.
  rewrite (H (pre ++ h) post (len (pre ++ h) + len x) (Ok ((pre ++ h) ++ y ++ post))).
  - cbn [rbind]. rewrite Lh. replace (len pre + 4 + len x) with (len pre + (4 + len x)) by lia.
    replace ((pre ++ h) ++ y ++ post) with (pre ++ ([tfn_code f; nb] ++ le 2 (len x) ++ y) ++ post)
      by (unfold h; rewrite <- !app_assoc; reflexivity).
    apply K. lia.
  - lia.
  - intros m M. destruct m as [|m]; [lia|]. cbn [link]. rewrite Z.leb_refl. reflexivity.
  - lia.
Qed.
Lemma links_mtfn f nb nv x : len x < 32768 -> links ([mtfn_code f; nb; nv] ++ with_len x) ([mtfn_code f; nb; nv] ++ with_len x).
Proof.
  intros S. pose proof (len_pos x) as P. unfold with_len. split; [reflexivity|]. intros pre post e R B K n N.
  assert (T : len ([mtfn_code f; nb; nv] ++ le 2 (len x) ++ x) = 5 + len x) by (rewrite !len_app, len_le; change (len [mtfn_code f; nb; nv]) with 3; lia).
  rewrite T in *.
  destruct n as [|n]; [lia|]. cbn [link]. replace (e <=? len pre) with false by (symmetry; apply Z.leb_gt; lia).
  rewrite to_nat_len, skipn_len by reflexivity. cbn [app]. rewrite <- app_assoc, fetch_mtfn by (unfold short_range; lia).
  cbn [rbind]. replace (len x <? 0) with false by (symmetry; apply Z.ltb_ge; lia).
  replace (len pre + 5 + len x) with (len pre + (5 + len x)) by lia.
  specialize (K n). cbn [app] in K. rewrite <- app_assoc in K. apply K. lia.
Qed.

Lemma dated_fits p : dated start p -> period_fits p.
Proof. unfold dated, period_fits. tauto. Qed.
Lemma period0_fits : period_fits period0.
Proof. split; cbn; unfold int_range; lia. Qed.
Lemma links_leaf ms l : named (ELeaf l) -> fits ms (ELeaf l) ->
  links (leaf_bytes real_bytes names start false ms l) (leaf_bytes real_bytes names start true ms l).
Proof.
  intros N F. destruct l; cbn [leaf_bytes].
  - apply (links_plain _ (I_REAL (real_bytes text))); [|rewrite len_cons; pose proof (len_pos (real_bytes text)); lia|exact I].
    intros rest. rewrite fetch_real by exact F. rewrite len_cons. unfold len. rewrite F. reflexivity.
  - apply (links_plain _ (I_LONG n)); [|rewrite len_cons, len_le; lia|exact I].
    intros rest. rewrite fetch_long by exact F. rewrite len_cons, len_le. reflexivity.
  - destruct N as (i & N & _ & N'). rewrite N.
    apply (links_plain _ (I_COEF (Z.of_nat i))); [|rewrite len_cons, len_le; lia|exact I].
    intros rest. rewrite fetch_coef by (unfold int_range; lia). rewrite len_cons, len_le. reflexivity.
  - destruct N as (i & N & _ & N'). rewrite N. cbn [S_Eval.fits] in F. destruct F as (_ & _ & F).
    destruct (placed ms) as [lag at_].
    assert (Q : short_range lag /\ period_fits (date_of at_)).
    { destruct at_ as [p|]; [split; [apply F|apply dated_fits, F]|split; [exact F|apply period0_fits]]. }
    destruct Q as [Q1 Q2].
    split; [rewrite !len_cons, !len_app, !len_le; reflexivity|]. intros pre post e R B K n Hn.
    assert (T : len (L_VAR :: le 4 (Z.of_nat i) ++ le 2 lag ++ le 2 0 ++ period_bytes (date_of at_)) = 33)
      by (rewrite len_cons, !len_app, !len_le, len_period; reflexivity).
    rewrite T in *. destruct n as [|n]; [lia|].
    cbn [link]. replace (e <=? len pre) with false by (symmetry; apply Z.leb_gt; lia).
    rewrite to_nat_len, skipn_len by reflexivity.
    rewrite fetch_var by (unfold int_range, short_range in *; try assumption; lia). cbn [rbind].
    assert (PUT : forall r, put (pre ++ (L_VAR :: le 4 (Z.of_nat i) ++ le 2 lag ++ le 2 0 ++ period_bytes (date_of at_)) ++ post)
        (len pre + 7) (le 2 r) =
        pre ++ (L_VAR :: le 4 (Z.of_nat i) ++ le 2 lag ++ le 2 r ++ period_bytes (date_of at_)) ++ post).
    { intros r. pose proof (put_mid pre (L_VAR :: le 4 (Z.of_nat i) ++ le 2 lag) (le 2 0) (le 2 r) (period_bytes (date_of at_)) post) as PM.
      rewrite !len_cons, !len_app, !len_le in PM. cbn [app] in PM. rewrite <- !app_assoc in PM. cbn [app].
      rewrite <- !app_assoc. apply PM. rewrite !le_length. reflexivity. }
    destruct at_ as [p|]; cbn [date_of] in *.
    + destruct F as ((F1 & F2 & F3 & F4 & d & F5) & F6 & F7).
      apply Z.eqb_neq in F2. rewrite F2. fold start in F5. rewrite F5. cbn [rbind].
      rewrite PUT. replace (lag + diff0 start p) with (lag + d) in K by (unfold diff0; rewrite F5; reflexivity).
      rewrite to_short_id by (rewrite Z.add_comm; apply F7; exact F5). apply K. lia.
    + change (step period0 =? 0) with true. cbn [rbind]. rewrite PUT. apply K. lia.
  - cbn [S_Eval.fits] in F. destruct F as [F1 F2].
    split; [rewrite !len_cons, !len_app, !len_le; reflexivity|]. intros pre post e R B K n Hn.
    assert (T : len (L_PERIOD :: period_bytes p ++ le 2 0) = 27) by (rewrite len_cons, !len_app, !len_le, len_period; reflexivity).
    rewrite T in *. destruct n as [|n]; [lia|].
    cbn [link]. replace (e <=? len pre) with false by (symmetry; apply Z.leb_gt; lia).
    rewrite to_nat_len, skipn_len by reflexivity.
    rewrite fetch_period by (try apply dated_fits; unfold short_range in *; try assumption; lia). cbn [rbind].
    destruct F1 as (_ & _ & _ & _ & d & F5). fold start in F5. rewrite F5. cbn [rbind].
    pose proof (put_mid pre (L_PERIOD :: period_bytes p) (le 2 0) (le 2 (to_short d)) [] post) as PM.
    rewrite !len_cons, len_period, !app_nil_r in PM. change (1 + 24) with 25 in PM.
    change ((L_PERIOD :: period_bytes p) ++ ?x) with (L_PERIOD :: period_bytes p ++ x) in PM.
    rewrite PM by (rewrite !le_length; reflexivity).
    replace (diff0 start p) with d in K by (unfold diff0; rewrite F5; reflexivity).
    rewrite to_short_id by (apply F2; exact F5). apply K. lia.
  - apply (links_plain _ (I_VAL v)); [|rewrite ?len_cons, len_nil; lia|exact I].
    intros rest. cbn [app]. apply fetch_val.
Qed.

Lemma Forall2_firstn {X Y} (P : X -> Y -> Prop) k : forall l m, Forall2 P l m -> Forall2 P (firstn k l) (firstn k m).
Proof. induction k as [|k IH]; intros l m H; [constructor|]. destruct H; cbn [firstn]; constructor; auto. Qed.
Lemma Forall2_skipn {X Y} (P : X -> Y -> Prop) k : forall l m, Forall2 P l m -> Forall2 P (skipn k l) (skipn k m).
Proof. induction k as [|k IH]; intros l m H; [assumption|]. destruct H; cbn [skipn]; auto. Qed.
Lemma Forall2_zip' {X Y V W} (Q : V -> W -> Prop) (f : X -> Y -> V) (g : X -> Y -> W) l : forall m,
  fold_right and True (zip (fun x y => Q (f x y) (g x y)) l m) -> Forall2 Q (zip f l m) (zip g l m).
Proof.
  induction l as [|x l IH]; intros [|y m] H; try constructor; cbn in *; try apply IH; tauto.
Qed.
Lemma zip_and {X Y} (P Q : X -> Y -> Prop) l : forall m,
  fold_right and True (zip P l m) -> fold_right and True (zip Q l m) -> fold_right and True (zip (fun x y => P x y /\ Q x y) l m).
Proof. induction l as [|x l IH]; intros [|y m]; cbn; auto. intros [] []; auto. Qed.

Lemma links_func f parts parts' : Forall2 links parts parts' -> (bodies f <= length parts)%nat ->
  sumZ (map len parts) + func_size f < 32768 ->
  match f with MTFN _ => let k := (length parts - bodies f)%nat in skipn k parts = skipn k parts' | _ => True end ->
  links (func_bytes f parts) (func_bytes f parts').
Proof.
  intros H B S M. unfold func_bytes. rewrite <- (Forall2_len _ _ _ H).
  assert (SP : forall k, sumZ (map len parts) = len (concat (firstn k parts)) + len (concat (skipn k parts))).
  { intros k. rewrite <- len_app, <- concat_app, firstn_skipn, len_concat. reflexivity. }
  destruct f as [f|f|f].
  - apply links_app; [apply links_concat; assumption|].
    apply (links_plain _ (I_FN f (Z.of_nat (length parts)))); [|rewrite !len_cons, len_nil; lia|exact I].
    intros rest. cbn [app]. apply fetch_fn.
  - set (k := (length parts - bodies (TFN f))%nat) in *.
    apply links_app; [apply links_concat, Forall2_firstn; assumption|]. apply links_tfn.
    + apply links_concat, Forall2_skipn. assumption.
    + specialize (SP k). pose proof (len_pos (concat (firstn k parts))). pose proof (func_size_pos (TFN f)). lia.
  - cbv zeta in M. set (k := (length parts - bodies (MTFN f))%nat) in *. rewrite <- M.
    apply links_app; [apply links_concat, Forall2_firstn; assumption|]. apply links_mtfn.
    rewrite with_lens_len, <- len_concat. specialize (SP k). pose proof (len_pos (concat (firstn k parts))).
    rewrite skipn_length. cbn [func_size bodies] in *. pose proof (min_args_pos (MTFN f)). subst k. lia.
Qed.
Lemma link_ok e : well_made real_bytes e -> size e < 32768 -> named e -> forall ms, fits ms e -> linkable ms e ->
  links (bytes false ms e) (bytes true ms e).
Proof.
  induction e using ex_ind2; intros W S N ms F L; cbn [L_Bytes.bytes] in *.
  - apply links_leaf; assumption.
  - apply IHe; assumption.
  - apply IHe; assumption.
  - cbn [well_made size named S_Eval.fits linkable] in *. pose proof (func_size_pos f).
    apply links_func; [constructor; [apply IHe; tauto || lia|constructor]|cbn [length]; tauto| |].
    + cbn [map sumZ]. rewrite bytes_len by tauto. lia.
    + destruct f; auto. cbv zeta. rewrite undated_bytes by tauto. reflexivity.
  - cbn [well_made size named S_Eval.fits linkable] in *. destruct W as (W1 & W2 & W3). destruct L as [L1 L2].
    pose proof (func_size_pos f).
    assert (Lp : length (zip (fun e m => bytes false m e) args (mods ms sfx (length args))) = length args)
      by (apply zip_mods_length; assumption).
    apply fold_and_Forall in W1. apply fold_and_Forall in N.
    apply links_func.
    + apply Forall2_zip'. pose proof (zip_and _ _ _ _ F L1) as Q. revert Q. apply zip_impl.
      rewrite Forall_forall in *. intros e I m [Q1 Q2]. pose proof (size_in e args I). apply H; auto. lia.
    + rewrite Lp. assumption.
    + rewrite (zip_map_len _ len size); [lia| |assumption]. rewrite Forall_forall in *. intros e I m. apply bytes_len. auto.
    + rewrite Lp. destruct f; auto. cbv zeta in *. rewrite !skipn_zip. apply zip_ext. revert L2. apply zip_impl.
      apply Forall_forall. intros e I m U. symmetry. apply undated_bytes. assumption.
  - cbn [well_made size named S_Eval.fits linkable] in *. pose proof (size_pos e1). pose proof (size_pos e2).
    apply links_app; [apply IHe1; tauto || lia|]. apply links_app; [apply IHe2; tauto || lia|].
    apply (links_plain _ (I_OP o)); [|rewrite ?len_cons, len_nil; lia|exact I]. intros rest. apply fetch_op.
Qed.
End Link.
