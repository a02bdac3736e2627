(** The byte code of a tree. *)
From Coq Require Import ZArith Ascii String List Bool Lia.
From Verif Require Import M_Base M_Time M_Names M_Lex M_Compile M_Bytes M_Exec S_Lec S_Eval L_Compile.
Import ListNotations.
Open Scope Z_scope.
Local Arguments Z.add : simpl never.
Local Arguments Z.sub : simpl never.
Local Arguments Z.mul : simpl never.
Local Arguments Z.of_nat : simpl never.
Local Arguments Z.div : simpl never.
Local Arguments Z.modulo : simpl never.
Local Arguments Z.pow : simpl never.

(** * Integers as bytes *)
Lemma le_length n z : length (le n z) = n.
Proof. revert z. induction n; intros z; simpl; auto. Qed.
Lemma un_le_le n z : un_le (le n z) = z mod 256 ^ Z.of_nat n.
Proof.
  revert z. induction n as [|n IH]; intros z; cbn [le un_le].
  - change (256 ^ Z.of_nat 0) with 1. rewrite Z.mod_1_r. reflexivity.
  - rewrite IH. replace (Z.of_nat (S n)) with (1 + Z.of_nat n) by lia.
    rewrite Z.pow_add_r by lia. rewrite Z.pow_1_r.
    rewrite Z.rem_mul_r by (try apply Z.pow_nonzero; try apply Z.pow_pos_nonneg; lia). lia.
Qed.
Lemma signed_le_le n z : (0 < n)%nat -> - (256 ^ Z.of_nat n) <= 2 * z < 256 ^ Z.of_nat n -> signed_le (le n z) = z.
Proof.
  intros N R. unfold signed_le. rewrite le_length, un_le_le. set (m := 256 ^ Z.of_nat n) in *.
  assert (M : 0 < m) by (apply Z.pow_pos_nonneg; lia).
  destruct (Z.ltb_spec z 0) as [H|H].
  - replace (z mod m) with (z + m).
    + destruct (Z.leb_spec m (2 * (z + m))); lia.
    + symmetry. rewrite <- (Z.mod_add z 1 m) by lia. rewrite Z.mod_small; lia.
  - rewrite Z.mod_small by lia. destruct (Z.leb_spec m (2 * z)); lia.
Qed.
Lemma to_short_id z : short_range z -> to_short z = z.
Proof. unfold short_range, to_short. intros H. rewrite Z.mod_small; lia. Qed.
Lemma to_short_range z : short_range (to_short z).
Proof. unfold short_range, to_short. pose proof (Z.mod_pos_bound (z + 32768) 65536). lia. Qed.
Lemma to_short_add a b : to_short (to_short a + b) = to_short (a + b).
Proof.
  unfold to_short. f_equal. replace ((a + 32768) mod 65536 - 32768 + b + 32768) with ((a + 32768) mod 65536 + b) by lia.
  rewrite Zplus_mod_idemp_l. f_equal. lia.
Qed.

(** * Arguments and their suffixes *)
Section Zips.
Context {C : Type} (f : ex -> list suffix -> C).
Lemma zip_one e ms sfx : zip f [e] (mods ms sfx 1) = [f e (sfx ++ ms)].
Proof. reflexivity. Qed.
Lemma zip_cons e e' l ms sfx :
  zip f (e :: e' :: l) (mods ms sfx (length (e :: e' :: l))) = f e ms :: zip f (e' :: l) (mods ms sfx (length (e' :: l))).
Proof. unfold mods. cbn [length]. replace (S (S (length l)) - 1)%nat with (S (length l)) by lia.
  replace (S (length l) - 1)%nat with (length l) by lia. reflexivity. Qed.
Lemma zip_mods_length args ms sfx : args <> [] -> length (zip f args (mods ms sfx (length args))) = length args.
Proof.
  induction args as [|e [|e' l] IH]; intros H; [contradiction|reflexivity|].
  rewrite zip_cons. cbn [length] in *. f_equal. apply IH. discriminate.
Qed.
End Zips.

(** * Elements under suffixes *)
Definition leaf_at (ms : list suffix) (l : leaf) : atom := fold_left (fun a s => sfx_atom s a) ms (leaf_atom l).
Fixpoint atoms (ms : list suffix) (e : ex) : list atom :=
  match e with
  | ELeaf l => [leaf_at ms l]
  | EPar e => group (atoms ms e)
  | ESfx e s => atoms (s :: ms) e
  | EPre f e => atoms ms e ++ [A_F f 1]
  | EApp f args sfx =>
    concat (zip (fun e m => group (atoms m e)) args (mods ms sfx (length args))) ++ [A_F f (Z.of_nat (length args))]
  | EBin o a b => atoms ms a ++ atoms ms b ++ [A_OP o]
  end.

Lemma sfx_all_app ms a b : sfx_all ms (a ++ b) = sfx_all ms a ++ sfx_all ms b.
Proof. unfold sfx_all. revert a b. induction ms as [|s ms IH]; intros a b; simpl; [reflexivity|]. rewrite map_app. apply IH. Qed.
Lemma sfx_all_fix ms a : (forall s, sfx_atom s a = a) -> sfx_all ms [a] = [a].
Proof. intros H. unfold sfx_all. induction ms as [|s ms IH]; simpl; [reflexivity|]. rewrite H. exact IH. Qed.
Lemma sfx_fix_F s f n : sfx_atom s (A_F f n) = A_F f n. Proof. destruct s as [[]|]; reflexivity. Qed.
Lemma sfx_fix_O s o : sfx_atom s (A_OP o) = A_OP o. Proof. destruct s as [[]|]; reflexivity. Qed.
Lemma sfx_all_group ms x : sfx_all ms (group x) = group (sfx_all ms x).
Proof.
  unfold group. change (A_OPENP :: x ++ [A_CLOSEP]) with ([A_OPENP] ++ x ++ [A_CLOSEP]).
  rewrite !sfx_all_app, !sfx_all_fix; [reflexivity| |]; intros s; destruct s as [[]|]; reflexivity.
Qed.
Lemma sfx_all_twice a b x : sfx_all b (sfx_all a x) = sfx_all (a ++ b) x.
Proof. unfold sfx_all. rewrite fold_left_app. reflexivity. Qed.

Lemma atoms_rpn e : forall ms, atoms ms e = sfx_all ms (rpn e).
Proof.
  induction e using ex_ind2; intros ms; cbn [atoms rpn].
  - unfold leaf_at, sfx_all. generalize (leaf_atom l). induction ms as [|s ms IH]; intros a; simpl; auto.
  - rewrite sfx_all_group, IHe. reflexivity.
  - rewrite IHe. reflexivity.
  - rewrite sfx_all_app, IHe. f_equal. symmetry. apply sfx_all_fix. intros. apply sfx_fix_F.
  - rewrite sfx_all_app. f_equal; [|symmetry; apply sfx_all_fix; intros; apply sfx_fix_F].
    induction args as [|e [|e' l] IH]; [unfold sfx_all; induction ms; simpl; auto| |].
    + rewrite zip_one. cbn [concat map groups]. rewrite app_nil_r, sfx_all_twice, sfx_all_group.
      inversion H; subst. rewrite H2. reflexivity.
    + rewrite zip_cons. cbn [concat]. inversion H; subst. rewrite IH by assumption.
      change (groups sfx (map rpn (e :: e' :: l))) with (group (rpn e) ++ groups sfx (map rpn (e' :: l))).
      rewrite sfx_all_app, sfx_all_group, H2. reflexivity.
  - rewrite !sfx_all_app, IHe1, IHe2. repeat f_equal. symmetry. apply sfx_all_fix. intros. apply sfx_fix_O.
Qed.
Lemma atoms_nil e : atoms [] e = rpn e.
Proof. apply atoms_rpn. Qed.

Lemma scan_sfx_all ms y rest : sub_count (sfx_all ms y ++ rest) 0 0 = sub_count (y ++ rest) 0 0.
Proof.
  revert y. induction ms as [|s ms IH]; intros y; [reflexivity|].
  unfold sfx_all in *. simpl. rewrite IH. apply scan_map; [apply par_sfx|apply sfx_kind].
Qed.
Lemma scan_delimited e rest : shape e -> delimited e = true ->
  sub_count (rev (rpn e) ++ rest) 0 0 = Some (length (rpn e)).
Proof.
  induction e using ex_ind2; intros R D; try discriminate D.
  - apply scan_primary; auto.
  - apply scan_primary; auto.
  - apply scan_primary; auto. 
  - cbn [rpn delimited shape] in *. rewrite rev_app_distr, app_length. cbn [rev app sub_count].
    replace (0 <? 0) with false by reflexivity. rewrite IHe by tauto. cbn [option_map length]. f_equal. lia.
Qed.
Lemma scan_atoms ms e rest : shape e -> delimited e = true ->
  sub_count (rev (atoms ms e) ++ rest) 0 0 = Some (length (atoms ms e)).
Proof.
  intros. rewrite atoms_rpn, sfx_all_rev, scan_sfx_all, sfx_all_length. apply scan_delimited; assumption.
Qed.
Lemma bal_atoms ms e : bal (rev (atoms ms e)).
Proof. rewrite atoms_rpn, sfx_all_rev. apply bal_sfx_all, bal_rpn. Qed.
Lemma scan_group_atoms ms e rest :
  sub_count (rev (group (atoms ms e)) ++ rest) 0 0 = Some (length (group (atoms ms e))).
Proof.
  rewrite group_rev. rewrite scan_group by apply bal_atoms. unfold group. cbn [length]. rewrite app_length, rev_length.
  cbn [length]. f_equal. lia.
Qed.

(** * Sizes *)
Definition own_sum (l : list atom) : Z := sumZ (map own_size l).
Lemma sumZ_app a b : sumZ (a ++ b) = sumZ a + sumZ b.
Proof. induction a; cbn [app sumZ]; lia. Qed.
Lemma own_app a b : own_sum (a ++ b) = own_sum a + own_sum b.
Proof. unfold own_sum. rewrite map_app, sumZ_app. reflexivity. Qed.
Lemma own_rev a : own_sum (rev a) = own_sum a.
Proof. induction a; [reflexivity|]. cbn [rev]. rewrite own_app, IHa. unfold own_sum. cbn [map sumZ]. lia. Qed.
Lemma own_group x : own_sum (group x) = own_sum x.
Proof. unfold group. change (A_OPENP :: x ++ [A_CLOSEP]) with ([A_OPENP] ++ x ++ [A_CLOSEP]). rewrite !own_app. cbn. lia. Qed.
Lemma calc_length_own l : calc_length l = to_short (own_sum l).
Proof.
  unfold calc_length, own_sum. f_equal.
  assert (G : forall l s, fold_left (fun s a => s + own_size a) l s = s + sumZ (map own_size l)).
  { induction l0 as [|a l0 IH]; intros s; cbn [fold_left map sumZ]; [lia|]. rewrite IH. lia. }
  rewrite G. lia.
Qed.
Lemma leaf_at_size ms l : own_size (leaf_at ms l) = leaf_size l.
Proof.
  unfold leaf_at. assert (G : forall a, own_size (fold_left (fun a s => sfx_atom s a) ms a) = own_size a).
  { induction ms as [|s ms IH]; intros a; [reflexivity|]. cbn [fold_left]. rewrite IH.
    destruct s as [neg n|p]; destruct a; cbn; try reflexivity; destruct (step p0 =? 0) || destruct (step _ =? 0); reflexivity. }
  rewrite G. destruct l; reflexivity.
Qed.
Lemma size_own e : no_mtfn e = true -> forall ms, own_sum (atoms ms e) = size e.
Proof.
  induction e using ex_ind2; cbn [no_mtfn atoms size]; intros N ms; rewrite ?andb_true_iff in N.
  - unfold own_sum. cbn [map sumZ]. rewrite leaf_at_size. lia.
  - rewrite own_group. auto.
  - auto.
  - destruct N as [N1 N2]. rewrite own_app, IHe by assumption. destruct f; try discriminate; cbn; lia.
  - destruct N as [N1 N2]. rewrite own_app. rewrite forallb_forall in N2.
    replace (own_sum [A_F f (Z.of_nat (length args))]) with (func_size f) by (destruct f; try discriminate; cbn; lia).
    f_equal. clear N1. induction args as [|e [|e' l] IH]; [reflexivity| |].
    + rewrite zip_one. cbn [concat map sumZ]. rewrite app_nil_r, own_group. inversion H; subst.
      rewrite H2 by (apply N2; left; reflexivity). lia.
    + rewrite zip_cons. cbn [concat]. rewrite own_app, own_group. inversion H; subst. rewrite IH.
      * cbn [map sumZ]. rewrite H2 by (apply N2; left; reflexivity). lia.
      * assumption.
      * intros x I. apply N2. right. assumption.
  - destruct N as [N1 N2]. rewrite !own_app, IHe1, IHe2 by assumption. cbn. lia.
Qed.
Lemma min_args_pos f : 0 <= min_args f <= 3.
Proof. destruct f as [f|f|f]; destruct f; cbn; lia. Qed.
Lemma size_pos e : 0 <= size e.
Proof.
  induction e using ex_ind2; cbn [size]; auto.
  - destruct l; cbn; lia.
  - assert (0 <= func_size f) by (destruct f; cbn [func_size]; try lia; pose proof (min_args_pos (MTFN f)); lia). lia.
  - assert (0 <= func_size f) by (destruct f; cbn [func_size]; try lia; pose proof (min_args_pos (MTFN f)); lia).
    induction H; cbn [map sumZ]; lia.
  - lia.
Qed.
Lemma func_size_pos f : 2 <= func_size f.
Proof. destruct f; cbn [func_size]; try lia. pose proof (min_args_pos (MTFN f)); lia. Qed.
Lemma sizes_pos args : 0 <= sumZ (map size args).
Proof. induction args; cbn [map sumZ]; [lia|]. pose proof (size_pos a). lia. Qed.
Lemma size_in e args : In e args -> size e <= sumZ (map size args).
Proof.
  induction args as [|a l IH]; intros []; cbn [map sumZ].
  - subst. pose proof (sizes_pos l). lia.
  - pose proof (size_pos a). apply IH in H. lia.
Qed.

(** * Bytes of a tree *)
Section Bytes.
Context (real_bytes : str -> list Z) (names : list str) (start : period).

Definition date_of (at_ : option period) : period := match at_ with None => period0 | Some p => p end.
Definition diff0 (p : period) : Z := match difference p start with Ok d => d | _ => 0 end.
Definition leaf_bytes (linked : bool) (ms : list suffix) (l : leaf) : list Z :=
  match l with
  | LReal s => L_DCONST :: real_bytes s
  | LLong n => L_LCONST :: le 8 n
  | LCoef n => L_COEF :: le 4 (pos_of names n)
  | LVar n =>
    let '(lag, at_) := placed ms in
    L_VAR :: le 4 (pos_of names n) ++ le 2 lag ++
      le 2 (if linked then match at_ with None => lag | Some p => lag + diff0 p end else 0) ++ period_bytes (date_of at_)
  | LPeriod p => L_PERIOD :: period_bytes p ++ le 2 (if linked then diff0 p else 0)
  | LVal v => [val_code v]
  end.
Definition len (l : list Z) : Z := Z.of_nat (length l).
Definition with_len (p : list Z) : list Z := le 2 (len p) ++ p.
Definition func_bytes (f : func) (parts : list (list Z)) : list Z :=
  let n := length parts in
  let k := (n - bodies f)%nat in
  match f with
  | FN f => concat parts ++ [fn_code f; Z.of_nat n]
  | TFN f => concat (firstn k parts) ++ [tfn_code f; Z.of_nat n] ++ with_len (concat (skipn k parts))
  | MTFN f =>
    concat (firstn k parts) ++ [mtfn_code f; Z.of_nat n; Z.of_nat (bodies (MTFN f))] ++
      with_len (concat (map with_len (skipn k parts)))
  end.
Fixpoint bytes (linked : bool) (ms : list suffix) (e : ex) : list Z :=
  match e with
  | ELeaf l => leaf_bytes linked ms l
  | EPar e => bytes linked ms e
  | ESfx e s => bytes linked (s :: ms) e
  | EPre f e => func_bytes f [bytes linked ms e]
  | EApp f args sfx => func_bytes f (zip (fun e m => bytes linked m e) args (mods ms sfx (length args)))
  | EBin o a b => bytes linked ms a ++ bytes linked ms b ++ [op_code o]
  end.

(** Real constants take eight bytes; functions have enough arguments. *)
Fixpoint well_made (e : ex) : Prop :=
  match e with
  | ELeaf (LReal s) => length (real_bytes s) = 8%nat
  | ELeaf _ => True
  | EPar e | ESfx e _ => well_made e
  | EPre f e => well_made e /\ (bodies f <= 1)%nat
  | EApp f args _ => fold_right and True (map well_made args) /\ (bodies f <= length args)%nat /\ args <> []
  | EBin _ a b => well_made a /\ well_made b
  end.

Lemma len_app a b : len (a ++ b) = len a + len b.
Proof. unfold len. rewrite app_length. lia. Qed.
Lemma len_le n z : len (le n z) = Z.of_nat n.
Proof. unfold len. rewrite le_length. reflexivity. Qed.
Lemma len_period p : len (period_bytes p) = 24.
Proof. unfold period_bytes. rewrite !len_app, !len_le. reflexivity. Qed.
Lemma len_cons x l : len (x :: l) = 1 + len l.
Proof. unfold len. cbn [length]. lia. Qed.
Lemma len_nil : len [] = 0. Proof. reflexivity. Qed.
Lemma len_concat l : len (concat l) = sumZ (map len l).
Proof. induction l; cbn [concat map sumZ]; [reflexivity|]. rewrite len_app. lia. Qed.
Lemma len_pos l : 0 <= len l. Proof. unfold len. lia. Qed.
Ltac lens := repeat rewrite ?len_cons, ?len_app, ?len_le, ?len_period, ?len_nil.

Lemma leaf_bytes_len lk ms l : well_made (ELeaf l) -> len (leaf_bytes lk ms l) = leaf_size l.
Proof.
  destruct l; cbn [well_made leaf_bytes leaf_size]; intros W; try (lens; reflexivity).
  - lens. unfold len. rewrite W. reflexivity.
  - destruct (placed ms). lens. reflexivity.
Qed.
Lemma func_bytes_len f parts : (bodies f <= length parts)%nat ->
  len (func_bytes f parts) = sumZ (map len parts) + func_size f.
Proof.
  intros B. unfold func_bytes. set (k := (length parts - bodies f)%nat).
  assert (S : sumZ (map len parts) = len (concat (firstn k parts)) + len (concat (skipn k parts))).
  { rewrite <- len_app, <- concat_app, firstn_skipn, len_concat. reflexivity. }
  destruct f as [f|f|f]; cbn [func_size].
  - rewrite len_app, len_concat. lens. lia.
  - rewrite !len_app. unfold with_len. lens. lia.
  - rewrite !len_app. unfold with_len at 1. lens.
    assert (W : forall l, len (concat (map with_len l)) = len (concat l) + 2 * Z.of_nat (length l)).
    { induction l as [|p l IH]; [reflexivity|]. cbn [map concat length]. rewrite !len_app, IH. unfold with_len. lens. lia. }
    rewrite W, skipn_length. unfold bodies in *. pose proof (min_args_pos (MTFN f)). lia.
Qed.
Lemma zip_map_len {X} (f : ex -> list suffix -> X) (g : X -> Z) (h : ex -> Z) args ms sfx :
  Forall (fun e => forall m, g (f e m) = h e) args -> args <> [] ->
  map g (zip f args (mods ms sfx (length args))) = map h args.
Proof.
  induction args as [|e [|e' l] IH]; intros H N; [contradiction| |].
  - rewrite zip_one. inversion H; subst. cbn [map]. rewrite H2. reflexivity.
  - rewrite zip_cons. inversion H; subst. cbn [map]. rewrite H2, IH; [reflexivity|assumption|discriminate].
Qed.
Lemma fold_and_Forall {X} (P : X -> Prop) l : fold_right and True (map P l) <-> Forall P l.
Proof.
  induction l as [|x l IH]; cbn; split; intros H; auto.
  - constructor; tauto.
  - inversion H; subst. tauto.
Qed.
Lemma bytes_len lk e : well_made e -> forall ms, len (bytes lk ms e) = size e.
Proof.
  induction e using ex_ind2; intros W ms; cbn [bytes size].
  - apply leaf_bytes_len. assumption.
  - auto.
  - auto.
  - destruct W as [W1 W2]. rewrite func_bytes_len by assumption. cbn [map sumZ]. rewrite IHe by assumption. lia.
  - destruct W as (W1 & W2 & W3). rewrite func_bytes_len by (rewrite zip_mods_length; assumption).
    rewrite (zip_map_len _ len size); [reflexivity| |assumption].
    apply fold_and_Forall in W1. rewrite Forall_forall in *. intros e I m. apply H; auto.
  - destruct W as [W1 W2]. lens. rewrite IHe1, IHe2 by assumption. lia.
Qed.

(** ** Encoding *)
Lemma firstn_len {X} (a b : list X) n : n = length a -> firstn n (a ++ b) = a.
Proof. intros ->. rewrite firstn_app, Nat.sub_diag, firstn_all. cbn. apply app_nil_r. Qed.
Lemma skipn_len {X} (a b : list X) n : n = length a -> skipn n (a ++ b) = b.
Proof. intros ->. rewrite skipn_app, Nat.sub_diag, skipn_all. reflexivity. Qed.

(** Suffixes of a variable. *)
Lemma leaf_at_var ms n : match placed ms with (_, Some p) => step p <> 0 | _ => True end ->
  leaf_at ms (LVar n) = A_VAR n (to_short (fst (placed ms))) (date_of (snd (placed ms))).
Proof.
  unfold leaf_at, placed. cbn [leaf_atom].
  assert (D : forall m lag p, step p <> 0 ->
    fold_left (fun a s => sfx_atom s a) m (A_VAR n lag p) = A_VAR n lag p).
  { induction m as [|s m IH]; intros lag p H; [reflexivity|]. cbn [fold_left].
    replace (sfx_atom s (A_VAR n lag p)) with (A_VAR n lag p); [apply IH; assumption|].
    apply Z.eqb_neq in H. destruct s; cbn [sfx_atom lag_atom time_atom]; rewrite H; reflexivity. }
  assert (P : forall m lag p, fold_left place m (lag, Some p) = (lag, Some p)).
  { induction m as [|s m IH]; intros lag p; [reflexivity|]. cbn [fold_left]. destruct s; apply IH. }
  assert (G : forall lag, match fold_left place ms (lag, None) with (_, Some p) => step p <> 0 | _ => True end ->
    fold_left (fun a s => sfx_atom s a) ms (A_VAR n (to_short lag) period0) =
    A_VAR n (to_short (fst (fold_left place ms (lag, None)))) (date_of (snd (fold_left place ms (lag, None))))).
  { induction ms as [|s m IH]; intros lag H; [reflexivity|]. cbn [fold_left] in *. destruct s as [neg k|p].
    - cbn [sfx_atom lag_atom]. change (step period0 =? 0) with true. cbv beta iota.
      cbn [place] in H |- *. rewrite to_short_add.
      replace (if neg then lag - k else lag + k) with (lag + (if neg then - k else k)) in * by (destruct neg; lia).
      apply IH. assumption.
    - cbn [place] in H |- *. rewrite P in *. cbn [sfx_atom time_atom]. change (step period0 =? 0) with true.
      cbn [fst snd date_of]. rewrite D by assumption. reflexivity. }
  apply (G 0).
Qed.

Lemma leaf_at_const ms l : match l with LVar _ => False | _ => True end -> leaf_at ms l = leaf_atom l.
Proof.
  intros H. unfold leaf_at. induction ms as [|s m IH]; [reflexivity|]. cbn [fold_left].
  replace (sfx_atom s (leaf_atom l)) with (leaf_atom l); [exact IH|]. destruct l; try contradiction; destruct s as [[]|]; reflexivity.
Qed.
Definition emits (ms : list suffix) (e : ex) : Prop :=
  forall rest rprev buf,
  emit_all real_bytes names (atoms ms e ++ rest) rprev buf =
  emit_all real_bytes names rest (rev (atoms ms e) ++ rprev) (buf ++ bytes false ms e).

Lemma emit_one a rest rprev buf : a <> A_EOE ->
  emit_all real_bytes names (a :: rest) rprev buf =
  (do b <- emit_atom real_bytes names a rprev buf; emit_all real_bytes names rest (a :: rprev) b).
Proof. destruct a; try reflexivity. congruence. Qed.

Lemma emits_group ms e : emits ms e -> forall rest rprev buf,
  emit_all real_bytes names (group (atoms ms e) ++ rest) rprev buf =
  emit_all real_bytes names rest (rev (group (atoms ms e)) ++ rprev) (buf ++ bytes false ms e).
Proof.
  intros H rest rprev buf. unfold group. cbn [app]. rewrite emit_one by discriminate. cbn [emit_atom rbind].
  rewrite <- app_assoc. rewrite H. cbn [app]. rewrite emit_one by discriminate. cbn [emit_atom rbind].
  cbn [rev]. rewrite rev_app_distr. cbn [rev app]. rewrite <- app_assoc. reflexivity.
Qed.
Lemma zip_impl {X Y} (P Q : X -> Y -> Prop) l : Forall (fun x => forall y, P x y -> Q x y) l ->
  forall m, fold_right and True (zip P l m) -> fold_right and True (zip Q l m).
Proof.
  induction l as [|x l IH]; intros H m; [auto|]. destruct m as [|y m]; [auto|]. inversion H; subst. cbn.
  intros [A B]. split; auto.
Qed.
Lemma emits_groups args ms sfx : args <> [] ->
  fold_right and True (zip (fun e m => emits m e) args (mods ms sfx (length args))) -> forall rest rprev buf,
  let parts := zip (fun e m => bytes false m e) args (mods ms sfx (length args)) in
  let gs := zip (fun e m => group (atoms m e)) args (mods ms sfx (length args)) in
  emit_all real_bytes names (concat gs ++ rest) rprev buf =
  emit_all real_bytes names rest (rev (concat gs) ++ rprev) (buf ++ concat parts).
Proof.
  induction args as [|e [|e' l] IH]; intros N H rest rprev buf; [contradiction| |].
  - cbv zeta. cbn [length] in *. rewrite zip_one in H. rewrite !zip_one. cbn [concat]. rewrite !app_nil_r. apply emits_group.
    apply H.
  - cbv zeta. rewrite !zip_cons in *. cbn [concat]. rewrite <- app_assoc. destruct H as [H1 H2].
    rewrite emits_group by auto. cbv zeta in IH. rewrite IH by (assumption || discriminate).
    rewrite rev_app_distr, <- !app_assoc. reflexivity.
Qed.

Lemma calc_length_size e ms : no_mtfn e = true -> size e < 32768 -> calc_length (rev (atoms ms e)) = size e.
Proof.
  intros N S. rewrite calc_length_own, own_rev, size_own by assumption. apply to_short_id.
  pose proof (size_pos e). unfold short_range. lia.
Qed.
Lemma calc_length_group e ms : no_mtfn e = true -> size e < 32768 -> calc_length (rev (group (atoms ms e))) = size e.
Proof.
  intros N S. rewrite calc_length_own, own_rev, own_group, size_own by assumption. apply to_short_id.
  pose proof (size_pos e). unfold short_range. lia.
Qed.

Lemma emit_tfn f nb x part rprev buf : sub_count (rev x ++ rprev) 0 0 = Some (length x) ->
  calc_length (rev x) = len part -> 
  emit_atom real_bytes names (A_F (TFN f) nb) (rev x ++ rprev) (buf ++ part) =
  Ok (buf ++ [tfn_code f; nb] ++ with_len part).
Proof.
  intros S L. cbn [emit_atom]. rewrite S. rewrite (firstn_len (rev x)) by (rewrite rev_length; reflexivity). rewrite L.
  pose proof (len_pos part). replace (Z.of_nat (length (buf ++ part))) with (len (buf ++ part)) by reflexivity.
  rewrite len_app. pose proof (len_pos buf).
  replace ((len part <? 0) || (len buf + len part <? len part)) with false by
    (symmetry; apply orb_false_intro; apply Z.ltb_ge; lia).
  cbv zeta. assert (K : (length (buf ++ part) - Z.to_nat (len part) = length buf)%nat).
  { unfold len. rewrite Nat2Z.id, app_length. lia. }
  rewrite K, firstn_len, skipn_len by reflexivity. unfold with_len. reflexivity.
Qed.
Lemma arg_lengths_ok xs parts rprev :
  Forall2 (fun x p => (forall r, sub_count (rev x ++ r) 0 0 = Some (length x)) /\ calc_length (rev x) = len p) xs parts ->
  arg_lengths (length xs) (rev (concat xs) ++ rprev) = Ok (rev (map len parts)).
Proof.
  revert parts. induction xs as [|x xs IH] using rev_ind; intros parts H.
  - inversion H; subst. reflexivity.
  - apply Forall2_app_inv_l in H. destruct H as (p1 & p2 & H1 & H2 & ->). inversion H2 as [|? y ? ? [S L] H4]; subst. inversion H4; subst.
    rewrite app_length. cbn [length]. rewrite Nat.add_1_r. cbn [arg_lengths].
    rewrite concat_app. cbn [concat]. rewrite app_nil_r, rev_app_distr, <- app_assoc. rewrite S.
    rewrite firstn_len, skipn_len by (rewrite rev_length; reflexivity). rewrite L.
    pose proof (len_pos y). replace (len y <? 0) with false by (symmetry; apply Z.ltb_ge; lia).
    rewrite (IH p1 H1). cbn [rbind]. rewrite map_app, rev_app_distr. reflexivity.
Qed.
Lemma insert_lens_ok parts : insert_lens (rev (map len parts)) (concat parts) = Some (concat (map with_len parts)).
Proof.
  induction parts as [|p l IH] using rev_ind; [reflexivity|].
  rewrite map_app, rev_app_distr, concat_app. cbn [map rev app insert_lens concat]. rewrite app_nil_r.
  replace (Z.of_nat (length (concat l ++ p))) with (len (concat l) + len p) by (rewrite <- len_app; reflexivity).
  pose proof (len_pos (concat l)).
  replace (len (concat l) + len p <? len p) with false by (symmetry; apply Z.ltb_ge; lia).
  assert (K : (length (concat l ++ p) - Z.to_nat (len p) = length (concat l))%nat).
  { unfold len. rewrite Nat2Z.id, app_length. lia. }
  rewrite K, firstn_len, skipn_len by reflexivity. rewrite IH. rewrite map_app, concat_app. cbn [map concat].
  rewrite app_nil_r. reflexivity.
Qed.
Lemma sumZ_rev l : sumZ (rev l) = sumZ l.
Proof. induction l; cbn [rev]; [reflexivity|]. rewrite sumZ_app, IHl. cbn [sumZ]. lia. Qed.
Lemma with_lens_len parts : len (concat (map with_len parts)) = sumZ (map len parts) + 2 * Z.of_nat (length parts).
Proof.
  induction parts as [|p l IH]; [reflexivity|]. cbn [map concat length sumZ]. rewrite len_app, IH.
  unfold with_len. lens. lia.
Qed.
Lemma Forall2_len {X Y} (P : X -> Y -> Prop) l m : Forall2 P l m -> length l = length m.
Proof. induction 1; cbn [length]; congruence. Qed.
Lemma emit_mtfn f nb xs parts rprev buf : length xs = Z.to_nat (min_args (MTFN f)) ->
  Forall2 (fun x p => (forall r, sub_count (rev x ++ r) 0 0 = Some (length x)) /\ calc_length (rev x) = len p) xs parts ->
  emit_atom real_bytes names (A_F (MTFN f) nb) (rev (concat xs) ++ rprev) (buf ++ concat parts) =
  Ok (buf ++ [mtfn_code f; nb; Z.of_nat (length xs)] ++ with_len (concat (map with_len parts))).
Proof.
  intros N H. cbn [emit_atom]. rewrite <- N. rewrite (arg_lengths_ok _ _ _ H). cbn [rbind].
  rewrite sumZ_rev, <- len_concat. pose proof (Forall2_len _ _ _ H) as N'.
  assert (K : (length (buf ++ concat parts) - Z.to_nat (len (concat parts)) = length buf)%nat).
  { unfold len. rewrite Nat2Z.id, app_length. lia. }
  rewrite K, skipn_len by reflexivity. rewrite insert_lens_ok.
  replace (Z.of_nat (length (buf ++ concat parts))) with (len buf + len (concat parts)) by (rewrite <- len_app; reflexivity).
  pose proof (len_pos buf). replace (len buf + len (concat parts) <? len (concat parts)) with false by
    (symmetry; apply Z.ltb_ge; lia).
  unfold take_before. rewrite sumZ_rev, <- len_concat, K, firstn_len by reflexivity.
  pose proof (with_lens_len parts) as WL. rewrite <- len_concat, <- N' in WL.
  set (c := concat (map with_len parts)) in *. unfold with_len. rewrite WL. reflexivity.
Qed.

(** What encoding needs of a tree: the series of time functions are delimited and contain no function of
    several series. *)
Fixpoint encodable (e : ex) : Prop :=
  match e with
  | ELeaf _ => True
  | EPar e | ESfx e _ => encodable e
  | EPre f e => encodable e /\ match f with FN _ => True | _ => delimited e = true /\ no_mtfn e = true end
  | EApp f args _ =>
    fold_right and True (map encodable args) /\
    Forall (fun e => no_mtfn e = true) (skipn (length args - bodies f) args)
  | EBin _ a b => encodable a /\ encodable b
  end.
Fixpoint dates_ok (ms : list suffix) (e : ex) : Prop :=
  match e with
  | ELeaf (LVar _) => match placed ms with (lag, None) => short_range lag | (lag, Some p) => short_range lag /\ step p <> 0 end
  | ELeaf _ => True
  | EPar e => dates_ok ms e
  | ESfx e s => dates_ok (s :: ms) e
  | EPre _ e => dates_ok ms e
  | EApp f args sfx => fold_right and True (zip (fun e m => dates_ok m e) args (mods ms sfx (length args)))
  | EBin _ a b => dates_ok ms a /\ dates_ok ms b
  end.

Lemma skipn_zip {X Y W} (f : X -> Y -> W) k : forall l m, skipn k (zip f l m) = zip f (skipn k l) (skipn k m).
Proof.
  induction k as [|k IH]; intros l m; [reflexivity|]. destruct l as [|x l]; [reflexivity|].
  destruct m as [|y m]; cbn [zip skipn]; [destruct (skipn k l); reflexivity|apply IH].
Qed.
Lemma Forall2_zip {X Y V W} (Q : V -> W -> Prop) (f : X -> Y -> V) (g : X -> Y -> W) l :
  Forall (fun x => forall y, Q (f x y) (g x y)) l -> forall m, Forall2 Q (zip f l m) (zip g l m).
Proof.
  induction l as [|x l IH]; intros H m; [constructor|]. destruct m as [|y m]; [constructor|]. inversion H; subst.
  cbn [zip]. constructor; auto.
Qed.
Lemma skipn_Forall {X} (P : X -> Prop) k l : Forall P l -> Forall P (skipn k l).
Proof. revert l. induction k as [|k IH]; intros l H; [assumption|]. destruct H; [constructor|]. cbn [skipn]. auto. Qed.
Lemma Forall_and2 {X} (P Q : X -> Prop) l : Forall P l -> Forall Q l -> Forall (fun x => P x /\ Q x) l.
Proof. induction 1; intros K; inversion K; subst; constructor; auto. Qed.

Lemma emit_ok e : shape e -> encodable e -> well_made e -> size e < 32768 ->
  forall ms, dates_ok ms e -> emits ms e.
Proof.
  induction e using ex_ind2; intros R C W S ms D.
  - intros rest rprev buf. cbn [atoms bytes app rev].
    destruct l; try (rewrite leaf_at_const by exact I; rewrite emit_one by discriminate; reflexivity).
    cbn [dates_ok] in D. rewrite leaf_at_var by (destruct (placed ms) as [? []]; tauto).
    rewrite emit_one by discriminate. cbn [emit_atom rbind leaf_bytes]. destruct (placed ms) as [lag at_].
    cbn [fst snd]. rewrite to_short_id by (destruct at_; tauto). reflexivity.
  - intros rest rprev buf. cbn [atoms bytes]. apply emits_group. apply IHe; assumption.
  - intros rest rprev buf. cbn [atoms bytes]. apply IHe; try assumption. apply R.
  - intros rest rprev buf. cbn [atoms bytes size shape encodable well_made dates_ok] in *.
    pose proof (func_size_pos f). rewrite <- app_assoc. rewrite IHe by (tauto || lia). cbn [app].
    rewrite emit_one by discriminate. rewrite rev_app_distr. cbn [rev app].
    destruct f as [f|f|f].
    + cbn [emit_atom rbind func_bytes concat]. rewrite <- !app_assoc. reflexivity.
    + destruct C as (C1 & C2 & C3). rewrite emit_tfn.
      * cbn [rbind func_bytes length bodies firstn skipn concat app Nat.sub]. rewrite app_nil_r. reflexivity.
      * apply scan_atoms; tauto.
      * rewrite calc_length_size, bytes_len by (tauto || lia). reflexivity.
    + destruct C as (C1 & C2 & C3). assert (M : min_args (MTFN f) = 1) by (destruct f; cbn in *; lia).
      pose proof (emit_mtfn f 1 [atoms ms e] [bytes false ms e] rprev buf) as Q. cbn [concat length] in Q.
      rewrite !app_nil_r in Q. rewrite Q.
      * cbn [rbind func_bytes length bodies firstn skipn concat app Nat.sub map]. rewrite M.
        change (1 - Z.to_nat 1)%nat with O. cbn [firstn skipn concat map app]. reflexivity.
      * rewrite M. reflexivity.
      * constructor; [|constructor]. split.
        -- intros r. apply scan_atoms; tauto.
        -- rewrite calc_length_size, bytes_len by (tauto || lia). reflexivity.
  - intros rest rprev buf. cbn [atoms bytes size shape encodable well_made dates_ok] in *.
    destruct R as (R1 & R2 & R3). destruct C as (C1 & C2). destruct W as (W1 & W2 & W3).
    apply shape_all in R1. apply fold_and_Forall in C1. apply fold_and_Forall in W1.
    pose proof (func_size_pos f) as FS.
    assert (Z1 : Forall (fun e => size e < 32768) args).
    { apply Forall_forall. intros e I. pose proof (size_in e args I). lia. }
    rewrite <- app_assoc. rewrite emits_groups; [|assumption|].
    2:{ revert D. apply zip_impl. rewrite Forall_forall in *. intros e I m D. apply H; auto. }
    cbn [app]. rewrite emit_one by discriminate. rewrite rev_app_distr. cbn [rev app].
    set (gs := zip (fun e m => group (atoms m e)) args (mods ms sfx (length args))).
    set (parts := zip (fun e m => bytes false m e) args (mods ms sfx (length args))).
    set (k := (length args - bodies f)%nat).
    assert (Lp : length parts = length args) by (apply zip_mods_length; assumption).
    assert (Lg : length gs = length args) by (apply zip_mods_length; assumption).
    assert (Q : Forall2 (fun x p => (forall r, sub_count (rev x ++ r) 0 0 = Some (length x)) /\ calc_length (rev x) = len p)
                  (skipn k gs) (skipn k parts)).
    { unfold gs, parts. rewrite !skipn_zip. apply Forall2_zip.
      apply (skipn_Forall _ k) in W1. apply (skipn_Forall _ k) in Z1.
      fold k in C2. rewrite Forall_forall in *. intros e I m. split.
      - intros r. apply scan_group_atoms.
      - rewrite calc_length_group, bytes_len by auto. reflexivity. }
    assert (Sg : concat gs = concat (firstn k gs) ++ concat (skipn k gs))
      by (rewrite <- concat_app, firstn_skipn; reflexivity).
    assert (Sp : concat parts = concat (firstn k parts) ++ concat (skipn k parts))
      by (rewrite <- concat_app, firstn_skipn; reflexivity).
    assert (Lk : length (skipn k gs) = bodies f) by (rewrite skipn_length; unfold k; lia).
    destruct f as [f|f|f].
    + cbn [emit_atom rbind func_bytes concat]. fold parts. rewrite Lp, <- !app_assoc. reflexivity.
    + pose proof (Forall2_len _ _ _ Q) as LQ. destruct (skipn k gs) as [|x [|]] eqn:G; try discriminate Lk.
      destruct (skipn k parts) as [|p [|]] eqn:P; try discriminate LQ.
      assert (Q' : (forall r, sub_count (rev x ++ r) 0 0 = Some (length x)) /\ calc_length (rev x) = len p) by (inversion Q; assumption).
      destruct Q' as [Q1 Q2]. rewrite Sg, Sp. cbn [concat]. rewrite !app_nil_r.
      rewrite rev_app_distr, <- app_assoc. rewrite (app_assoc buf).
      rewrite emit_tfn by auto. cbn [rbind].
      cbn [func_bytes]. rewrite Lp. fold k. rewrite P. cbn [concat]. rewrite app_nil_r, <- !app_assoc. reflexivity.
    + rewrite Sg, Sp, rev_app_distr, <- app_assoc, (app_assoc buf). rewrite emit_mtfn by assumption.
      cbn [rbind]. rewrite Lk. cbn [func_bytes]. rewrite Lp. fold k. rewrite <- !app_assoc. reflexivity.
  - intros rest rprev buf. cbn [atoms bytes size shape encodable well_made dates_ok] in *.
    pose proof (size_pos e1). pose proof (size_pos e2).
    rewrite <- !app_assoc. rewrite IHe1 by (tauto || lia). rewrite IHe2 by (tauto || lia). cbn [app].
    rewrite emit_one by discriminate. cbn [emit_atom rbind]. rewrite !rev_app_distr. cbn [rev app]. rewrite <- !app_assoc.
    reflexivity.
Qed.
End Bytes.
