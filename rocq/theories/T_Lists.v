(** C92: the calculus on lists gives the union, the intersection, the difference, the product, the sorted list, the number of
    elements.  C93: a list made by a command stands for its elements. *)
From Coq Require Import ZArith Ascii String List Bool Lia ZifyBool Sorting.Permutation Sorting.Sorted.
From Verif Require Import M_Base M_Time M_Names M_Lex M_Kdb M_Report S_Report S_Names L_Names L_Kdb L_Time L_Report2 L_Report4 L_Report5 M_Lists S_Lists L_Lists L_Lists2.
Import ListNotations.
Open Scope Z_scope.

(** * C92 *)
Section Calc.
Variable files : str -> option str.
Variable ws : lists.
Definition only_changes (ws ws' : lists) (name : str) : Prop := forall other, ~ same_name other name -> list_of ws' other = list_of ws other.

Theorem C92_union : forall r a b la lb, list_name r -> list_name a -> list_name b -> list_holds ws a la -> list_holds ws b lb ->
  exists ws', DataCalcLst files ws (joined BLANK [r; a; S2L "+"; b]) = Ok (true, ws') /\ list_holds ws' r (firsts (la ++ lb)) /\ only_changes ws ws' r /\
    NoDup (firsts (la ++ lb)) /\ (forall w, In w (firsts (la ++ lb)) <-> In w la \/ In w lb).
Proof.
  intros r a b la lb R A B Ha Hb. unfold DataCalcLst. replace (vtom_chk (joined BLANK [r; a; S2L "+"; b])) with [r; a; [chr 43]; b] by (symmetry; apply (calc_args r a (chr 43) b R A B); cbn; tauto).
  destruct (holds_init files ws a la Ha) as (ta & -> & ->). destruct (holds_init files ws b lb Hb) as (tb & -> & ->).
  change (is 43 (chr 43)) with true. cbn iota. rewrite union_firsts, KL_lst_whole by (try exact R; lia). eexists. split; [reflexivity|]. rewrite <- !and_assoc. split; [split|].
  - apply whole_holds; [exact R|]. apply (incl_elements (la ++ lb)); [intros w; apply firsts_In|]. rewrite forallb_app, (holds_all _ _ _ Ha), (holds_all _ _ _ Hb). reflexivity.
  - apply firsts_NoDup.
  - intros w. rewrite firsts_In, in_app_iff. reflexivity.
Qed.
Theorem C92_intersection : forall r a b la lb, list_name r -> list_name a -> list_name b -> list_holds ws a la -> list_holds ws b lb ->
  exists ws', DataCalcLst files ws (joined BLANK [r; a; S2L "*"; b]) = Ok (true, ws') /\ list_holds ws' r (firsts (filter (within lb) la)) /\ only_changes ws ws' r /\
    NoDup (firsts (filter (within lb) la)) /\ (forall w, In w (firsts (filter (within lb) la)) <-> In w la /\ In w lb).
Proof.
  intros r a b la lb R A B Ha Hb. unfold DataCalcLst. replace (vtom_chk (joined BLANK [r; a; S2L "*"; b])) with [r; a; [chr 42]; b] by (symmetry; apply (calc_args r a (chr 42) b R A B); cbn; tauto).
  destruct (holds_init files ws a la Ha) as (ta & -> & ->). destruct (holds_init files ws b lb Hb) as (tb & -> & ->).
  change (is 43 (chr 42)) with false. change (is 42 (chr 42)) with true. cbn iota. rewrite inter_firsts, KL_lst_whole by (try exact R; lia). eexists. split; [reflexivity|]. rewrite <- !and_assoc. split; [split|].
  - apply whole_holds; [exact R|]. apply (incl_elements la); [|exact (holds_all _ _ _ Ha)]. intros w Hw. apply firsts_In, filter_In in Hw. tauto.
  - apply firsts_NoDup.
  - intros w. rewrite firsts_In, filter_In, within_In. reflexivity.
Qed.
Theorem C92_difference : forall r a b la lb, list_name r -> list_name a -> list_name b -> list_holds ws a la -> list_holds ws b lb ->
  exists ws', DataCalcLst files ws (joined BLANK [r; a; S2L "-"; b]) = Ok (true, ws') /\ list_holds ws' r (filter (fun w => negb (within lb w)) la) /\ only_changes ws ws' r /\
    (forall w, In w (filter (fun w => negb (within lb w)) la) <-> In w la /\ ~ In w lb).
Proof.
  intros r a b la lb R A B Ha Hb. unfold DataCalcLst. replace (vtom_chk (joined BLANK [r; a; S2L "-"; b])) with [r; a; [chr 45]; b] by (symmetry; apply (calc_args r a (chr 45) b R A B); cbn; tauto).
  destruct (holds_init files ws a la Ha) as (ta & -> & ->). destruct (holds_init files ws b lb Hb) as (tb & -> & ->).
  change (is 43 (chr 45)) with false. change (is 42 (chr 45)) with false. change (is 45 (chr 45)) with true. cbn iota. rewrite KL_lst_whole by (try exact R; lia). eexists. split; [reflexivity|].
  rewrite <- !and_assoc. split.
  - apply whole_holds; [exact R|]. apply (incl_elements la); [|exact (holds_all _ _ _ Ha)]. intros w Hw. apply filter_In in Hw. tauto.
  - intros w. rewrite filter_In, negb_true_iff, <- not_true_iff_false, within_In. reflexivity.
Qed.
Theorem C92_product : forall r a b la lb, list_name r -> list_name a -> list_name b -> list_holds ws a la -> list_holds ws b lb ->
  Forall (fun w => (length w <= 128)%nat) (product la lb) ->
  exists ws', DataCalcLst files ws (joined BLANK [r; a; S2L "x"; b]) = Ok (true, ws') /\ list_holds ws' r (product la lb) /\ only_changes ws ws' r.
Proof.
  intros r a b la lb R A B Ha Hb L. unfold DataCalcLst. replace (vtom_chk (joined BLANK [r; a; S2L "x"; b])) with [r; a; [chr 120]; b] by (symmetry; apply (calc_args r a (chr 120) b R A B); cbn; tauto).
  destruct (holds_init files ws a la Ha) as (ta & -> & ->). destruct (holds_init files ws b lb Hb) as (tb & -> & ->).
  change (is 43 (chr 120)) with false. change (is 42 (chr 120)) with false. change (is 45 (chr 120)) with false. change (is 120 (chr 120)) with true. cbn iota.
  rewrite KL_lst_whole by (try exact R; lia). eexists. split; [reflexivity|]. apply whole_holds; [exact R|].
  pose proof (holds_all _ _ _ Ha) as Ea. pose proof (holds_all _ _ _ Hb) as Eb. change (Lst_times (Some la) (Some lb)) with (product la lb).
  rewrite forallb_forall in *. rewrite Forall_forall in L. intros w Hw. specialize (L w Hw). unfold product in Hw. apply in_flat_map in Hw as (x & Hx & Hw). apply in_map_iff in Hw as (y & <- & Hy).
  specialize (Ea x Hx). specialize (Eb y Hy). unfold element, word in *. rewrite !andb_true_iff in *. destruct Ea as [[[[A1 A2] A3] A4] A5]. destruct Eb as [[[[B1 B2] B3] B4] B5].
  destruct x as [|c x]; [discriminate|]. repeat split; [| |apply Nat.leb_le, L|exact A5].
  - rewrite forallb_app, A2, B2. reflexivity.
  - unfold without in *. rewrite forallb_app, A3, B3. reflexivity.
Qed.
(** An operand that is not a list: nothing changes and the command fails. *)
Theorem C92_calc_fails : forall r a b op, list_name r -> list_name a -> list_name b -> In op [chr 43; chr 42; chr 45; chr 120] -> list_of ws a = None \/ list_of ws b = None ->
  DataCalcLst files ws (joined BLANK [r; a; [op]; b]) = Ok (false, ws).
Proof.
  intros r a b op R A B O H. unfold DataCalcLst. replace (vtom_chk (joined BLANK [r; a; [op]; b])) with [r; a; [op]; b] by (symmetry; apply (calc_args r a op b R A B O)). destruct H as [-> | ->]; [reflexivity|]. destruct (list_of ws a); reflexivity.
Qed.
Theorem C92_sort : forall a r la, list_name a -> list_name r -> list_holds ws a la ->
  exists ws' s, DataListSort files ws (joined BLANK [a; r]) = Ok (true, ws') /\ list_holds ws' r s /\ Permutation la s /\ StronglySorted not_after s /\ only_changes ws ws' r.
Proof.
  intros a r la A R Ha. unfold DataListSort. rewrite vtom_joined.
  - destruct (holds_init files ws a la Ha) as (ta & -> & ->). rewrite set_list_ok by exact R. do 2 eexists. split; [reflexivity|].
    destruct (whole_holds ws r (sort la) R) as [W O]; [|split; [exact W|repeat split; [apply sort_perm|apply sort_sorted|exact O]]].
    apply (incl_elements la); [|exact (holds_all _ _ _ Ha)]. intros w Hw. apply (Permutation_in w (Permutation_sym (sort_perm la))), Hw.
  - cbn [forallb]. rewrite (proj1 (name_clean a A)), (proj1 (name_clean r R)). reflexivity.
  - cbn [forallb]. rewrite (proj2 (name_clean a A)), (proj2 (name_clean r R)). reflexivity.
Qed.
Theorem C92_count : forall a la, list_holds ws a la -> DataListCount files ws a = Ok (Z.of_nat (length la)).
Proof. intros a la H. unfold DataListCount. destruct (holds_init files ws a la H) as (t & -> & ->). reflexivity. Qed.
(** [ws0]: the lists that the list and the new text may refer to; not the list itself. *)
Theorem C92_append : forall ws0 name text old lo ln, list_name name -> other_lists ws0 ws name -> list_of ws name = Some old ->
  stands_for ws0 old lo -> stands_for ws0 text ln -> without [9] text = true ->
  exists ws', DataAppendLst ws (name ++ BLANK :: text) = Ok (true, ws') /\ list_holds ws' name (lo ++ ln) /\ only_changes ws ws' name.
Proof.
  clear files. intros ws0 name text old lo ln N O Ho [Q1 F1] [Q2 F2] T. unfold DataAppendLst. rewrite get_arg0_name by assumption.
  replace (Nat.leb (length (name ++ BLANK :: text)) (length name)) with false by (rewrite app_length; cbn [length]; lia).
  replace (skipn (S (length name)) (name ++ BLANK :: text)) with text by (change (BLANK :: text) with ([BLANK] ++ text); rewrite app_assoc, skipn_app, app_length; cbn [length]; rewrite skipn_all2 by (rewrite app_length; cbn [length]; lia); rewrite Nat.add_1_r, Nat.sub_diag; reflexivity).
  rewrite Ho, set_list_ok by exact N. eexists. split; [reflexivity|]. set (ws' := M_Kdb.put _ _ ws).
  assert (G : forall x t, list_of ws0 x = Some t -> list_of ws' x = Some t).
  { intros x t Hx. apply O in Hx as [Hd Hx]. unfold list_of, ws' in *. rewrite find_put_neq; [exact Hx|]. intros E. apply Hd. unfold same_name. rewrite (list_name_key name N). exact E. }
  split.
  - eexists. split; [rewrite list_of_name by exact N; apply find_put_eq|]. split.
    + unfold without in *. rewrite forallb_app. cbn [forallb]. rewrite Q1, Q2. reflexivity.
    + rewrite items_comma. apply flat_app; [exact (flat_grows _ _ G _ _ _ F1)|exact (flat_grows _ _ G _ _ _ F2)].
  - intros other D. unfold list_of, ws'. apply find_put_neq. intros E. apply D. unfold same_name. rewrite (list_name_key name N). exact E.
Qed.
(** A new list. *)
Theorem C92_append_new : forall ws0 name text ln, list_name name -> other_lists ws0 ws name -> list_of ws name = None ->
  stands_for ws0 text ln -> without [9] text = true ->
  exists ws', DataAppendLst ws (name ++ BLANK :: text) = Ok (true, ws') /\ list_holds ws' name ln /\ only_changes ws ws' name.
Proof.
  clear files. intros ws0 name text ln N O Ho [Q2 F2] T. unfold DataAppendLst. rewrite get_arg0_name by assumption.
  replace (Nat.leb (length (name ++ BLANK :: text)) (length name)) with false by (rewrite app_length; cbn [length]; lia).
  replace (skipn (S (length name)) (name ++ BLANK :: text)) with text by (change (BLANK :: text) with ([BLANK] ++ text); rewrite app_assoc, skipn_app, app_length; cbn [length]; rewrite skipn_all2 by (rewrite app_length; cbn [length]; lia); rewrite Nat.add_1_r, Nat.sub_diag; reflexivity).
  rewrite Ho, set_list_ok by exact N. eexists. split; [reflexivity|]. set (ws' := M_Kdb.put _ _ ws).
  assert (G : forall x t, list_of ws0 x = Some t -> list_of ws' x = Some t).
  { intros x t Hx. apply O in Hx as [Hd Hx]. unfold list_of, ws' in *. rewrite find_put_neq; [exact Hx|]. intros E. apply Hd. unfold same_name. rewrite (list_name_key name N). exact E. }
  split.
  - eexists. split; [rewrite list_of_name by exact N; apply find_put_eq|]. split; [exact Q2|exact (flat_grows _ _ G _ _ _ F2)].
  - intros other D. unfold list_of, ws'. apply find_put_neq. intros E. apply D. unfold same_name. rewrite (list_name_key name N). exact E.
Qed.

(** The documented form of the sort with one list always fails; a name that is refused is an exception, as is the count of a
    list that does not exist (documented: -1). *)
Theorem C92_sort_in_place_refuted : forall a, list_name a -> DataListSort files ws a = Ok (false, ws).
Proof.
  intros a A. unfold DataListSort. change a with (joined BLANK [a]). rewrite vtom_joined; [reflexivity| |]; cbn [forallb].
  - rewrite (proj1 (name_clean a A)). reflexivity.
  - rewrite (proj2 (name_clean a A)). reflexivity.
Qed.
Theorem C92_count_unknown_refuted : forall a, list_of ws a = None -> DataListCount files ws a = Throw.
Proof. intros a H. unfold DataListCount. rewrite H. reflexivity. Qed.
End Calc.

(** * C93 *)
Theorem C93_expand : forall files ws text l, stands_for ws text l -> a_init files ws text = Some l.
Proof. exact stands_init. Qed.
Theorem C93_lists : forall ws name l chunk, list_name name -> chunk <> 0 -> forallb element l = true ->
  (chunk < 0 \/ Z.of_nat (length l) < chunk \/ room_for_numbers name l) ->
  exists ws', KL_lst ws name l chunk = Ok (true, ws') /\ (forall files, a_init files ws' (S2L "$" ++ name) = Some l) /\ list_holds ws' name l /\
    (forall other, ~ same_name other name -> (forall j, 0 <= j < Z.of_nat (length l) -> ~ same_name other (name ++ to_string j)) -> list_of ws' other = list_of ws other).
Proof.
  intros ws name l chunk N C E H. destruct (KL_lst_holds ws name l chunk N C E H) as (ws' & K & L & S & O). exists ws'. repeat split; [exact K| |exact L|exact O].
  intros files. apply stands_init, S.
Qed.
Theorem C93_expand_parts : forall ws name l chunk, list_name name -> 0 < chunk -> Z.of_nat (length l) <= chunk * chunk -> forallb element l = true ->
  forallb (without [12]) l = true -> room_for_numbers name l ->
  exists ws' t, KL_lst ws name l chunk = Ok (true, ws') /\ list_of ws' name = Some t /\ KL_expand ws' t = Ok l.
Proof. exact KL_expand_lst. Qed.

(** * Cases *)
Definition no_files : str -> option str := fun _ => None.
Definition words (l : list string) : list str := map S2L l.
Definition w0 : lists := M_Kdb.put (S2L "A") (S2L "X;Y,$B Z") (M_Kdb.put (S2L "B") (S2L "Y U") (M_Kdb.put (S2L "C") (S2L "U;Z;V;U") [])).
Ltac element_of := apply flat_element; [reflexivity|].
Lemma holds_A : list_holds w0 (S2L "a") (words ["X"; "Y"; "Y"; "U"; "Z"]%string).
Proof.
  exists (S2L "X;Y,$B Z"). repeat split. vm_compute items. do 2 element_of. apply (flat_list w0 9 (S2L "B") (S2L "Y U") (words ["Y"; "U"]%string)); try reflexivity.
  - vm_compute items. do 2 element_of. constructor.
  - element_of. constructor.
Qed.
Lemma holds_C : list_holds w0 (S2L "C") (words ["U"; "Z"; "V"; "U"]%string).
Proof. exists (S2L "U;Z;V;U"). repeat split. vm_compute items. do 4 element_of. constructor. Qed.
Example names_ok : list_name (S2L "a") /\ list_name (S2L "C") /\ list_name (S2L "R").
Proof. repeat split. Qed.
Example union_case : exists ws', DataCalcLst no_files w0 (S2L "R a + C") = Ok (true, ws') /\ list_of ws' (S2L "r") = Some (S2L "X;Y;U;Z;V").
Proof. eexists. split; vm_compute; reflexivity. Qed.
Example intersection_case : exists ws', DataCalcLst no_files w0 (S2L "R C * a") = Ok (true, ws') /\ list_of ws' (S2L "R") = Some (S2L "U;Z").
Proof. eexists. split; vm_compute; reflexivity. Qed.
Example difference_case : exists ws', DataCalcLst no_files w0 (S2L "C a - C") = Ok (true, ws') /\ list_of ws' (S2L "C") = Some (S2L "X;Y;Y").
Proof. eexists. split; vm_compute; reflexivity. Qed.
Example product_case : exists ws', DataCalcLst no_files w0 (S2L "R B x B") = Ok (true, ws') /\ list_of ws' (S2L "R") = Some (S2L "YY;YU;UY;UU").
Proof. eexists. split; vm_compute; reflexivity. Qed.
Example sort_case : exists ws', DataListSort no_files w0 (S2L "a R") = Ok (true, ws') /\ list_of ws' (S2L "R") = Some (S2L "U;X;Y;Y;Z").
Proof. eexists. split; vm_compute; reflexivity. Qed.
Example count_case : DataListCount no_files w0 (S2L "a") = Ok 5.
Proof. vm_compute. reflexivity. Qed.
Lemma others_case : other_lists (M_Kdb.put (S2L "B") (S2L "Y U") []) w0 (S2L "A").
Proof.
  intros x t. unfold list_of, same_name. set (k := to_key UPPER_CASE x). cbn [M_Kdb.put M_Kdb.find]. destruct (str_eqb k (S2L "B")) eqn:E; [|discriminate].
  apply str_eqb_iff in E. intros H. rewrite E. split; [vm_compute; discriminate|]. rewrite <- H. reflexivity.
Qed.
Example append_case : exists ws', DataAppendLst w0 (S2L "A $B W") = Ok (true, ws') /\ list_holds ws' (S2L "A") (words ["X"; "Y"; "Y"; "U"; "Z"; "Y"; "U"; "W"]%string).
Proof.
  destruct (C92_append w0 (M_Kdb.put (S2L "B") (S2L "Y U") []) (S2L "A") (S2L "$B W") (S2L "X;Y,$B Z") (words ["X"; "Y"; "Y"; "U"; "Z"]%string) (words ["Y"; "U"; "W"]%string)) as (ws' & E & H & _).
  - reflexivity.
  - exact others_case.
  - reflexivity.
  - split; [reflexivity|]. vm_compute items. do 2 element_of. apply (flat_list _ 9 (S2L "B") (S2L "Y U") (words ["Y"; "U"]%string)); try reflexivity.
    + vm_compute items. do 2 element_of. constructor.
    + element_of. constructor.
  - split; [reflexivity|]. vm_compute items. apply (flat_list _ 9 (S2L "B") (S2L "Y U") (words ["Y"; "U"]%string)); try reflexivity.
    + vm_compute items. do 2 element_of. constructor.
    + element_of. constructor.
  - reflexivity.
  - exists ws'. split; [exact E|exact H].
Qed.
Definition five : list str := words ["X1"; "X2"; "X3"; "X4"; "X5"]%string.
Example room_case : room_for_numbers (S2L "my_list") five.
Proof. intros j Hj. assert (C : In j [0; 1; 2; 3; 4]) by (cbn; cbn in Hj; lia). cbn in C. destruct C as [<-|[<-|[<-|[<-|[<-|[]]]]]]; vm_compute; lia. Qed.
Example parts_case : exists ws', KL_lst w0 (S2L "my_list") five 2 = Ok (true, ws') /\ list_of ws' (S2L "MY_LIST") = Some (S2L "$my_list0;$my_list1;$my_list2;") /\
  list_of ws' (S2L "MY_LIST1") = Some (S2L "X3;X4") /\ a_init no_files ws' (S2L "$my_list") = Some five.
Proof. eexists. repeat split; vm_compute; reflexivity. Qed.
Example expand_case : exists ws', KL_lst w0 (S2L "my_list") five 3 = Ok (true, ws') /\ KL_expand ws' (S2L "$MY_LIST") = Ok five.
Proof. eexists. split; vm_compute; reflexivity. Qed.

(** An operand that refers to a list that does not exist: the command succeeds and the result is the empty list, although the
    first operand has elements. *)
Theorem C92_unknown_refuted : exists ws ws', list_of ws (S2L "A") = Some (S2L "X;$NO") /\ list_holds ws (S2L "B") [S2L "Y"] /\
  DataCalcLst no_files ws (S2L "R A + B") = Ok (true, ws') /\ list_of ws' (S2L "R") = Some [].
Proof.
  exists (M_Kdb.put (S2L "A") (S2L "X;$NO") (M_Kdb.put (S2L "B") (S2L "Y") [])). eexists. split; [reflexivity|]. split; [|split; vm_compute; reflexivity].
  exists (S2L "Y"). repeat split. vm_compute items. element_of. constructor.
Qed.
(** A name that is refused is an exception that the command does not catch. *)
Theorem C92_sort_name_refuted : DataListSort no_files w0 (S2L "A 1B") = Throw /\ DataAppendLst w0 (S2L "1B X") = Throw.
Proof. split; vm_compute; reflexivity. Qed.
(** With a name of 18 characters, a list made of parts cannot be expanded. *)
Definition eleven : list str := words ["X0"; "X1"; "X2"; "X3"; "X4"; "X5"; "X6"; "X7"; "X8"; "X9"; "Y"]%string.
Theorem C93_long_name_refuted : exists name l ws', list_name name /\ forallb element l = true /\ KL_lst [] name l 2 = Ok (true, ws') /\ a_init no_files ws' (S2L "$" ++ name) = None.
Proof. exists (S2L "ABCDEFGHIJKLMNOPQR"), eleven. eexists. repeat split; vm_compute; reflexivity. Qed.
(** With a name of 20 characters the parts are stored under the name itself. *)
Theorem C93_longest_name_refuted : exists name l ws', list_name name /\ forallb element l = true /\ KL_lst [] name l 2 = Ok (true, ws') /\ length ws' = 1%nat /\ a_init no_files ws' (S2L "$" ++ name) <> Some l.
Proof. exists (S2L "ABCDEFGHIJKLMNOPQRST"), eleven. eexists. split; [reflexivity|]. split; [reflexivity|]. split; [vm_compute; reflexivity|]. split; [reflexivity|]. vm_compute. discriminate. Qed.
(** The parts replace lists of the user. *)
Theorem C93_overwritten_refuted : exists ws ws', list_of ws (S2L "L1") = Some (S2L "KEEP") /\ KL_lst ws (S2L "L") five 2 = Ok (true, ws') /\ list_of ws' (S2L "L1") = Some (S2L "X3;X4").
Proof. exists (M_Kdb.put (S2L "L1") (S2L "KEEP") []). eexists. repeat split; vm_compute; reflexivity. Qed.
(** Eleven levels: the elements vanish without an error. *)
Fixpoint levels (n : nat) : lists :=
  match n with
  | O => [(S2L "L0", S2L "X")]
  | S n' => M_Kdb.put (S2L "L" ++ to_string (Z.of_nat n)) (S2L "$L" ++ to_string (Z.of_nat n')) (levels n')
  end.
Theorem C93_levels_refuted : a_init no_files (levels 9) (S2L "$L9") = Some [S2L "X"] /\ a_init no_files (levels 10) (S2L "$L10") = Some [].
Proof. split; vm_compute; reflexivity. Qed.
(** KL_expand: undefined for an empty list inside a list, for a short list before longer text, for a list that contains itself. *)
Theorem C93_expand_refuted : KL_expand (M_Kdb.put (S2L "A") [] []) (S2L "$A;B") = UB /\
  KL_expand (M_Kdb.put (S2L "A") (S2L "X;Y") []) (S2L "$A;B;C") = UB /\ KL_expand (M_Kdb.put (S2L "A") (S2L "$A") []) (S2L "$A") = UB.
Proof. repeat split; vm_compute; reflexivity. Qed.
(** Words in quotes keep their blanks, commas, ends of line. *)
Theorem C93_quoted : forall files ws l, forallb quotable l = true -> a_init files ws (concat (map quoted l)) = Some l.
Proof. exact quoted_init. Qed.
Example C93_quoted_case : forallb quotable [S2L "two words"; S2L "a;b, c"] = true /\ concat (map quoted [S2L "two words"; S2L "a;b, c"]) = [chr 34] ++ S2L "two words" ++ [chr 34; BLANK; chr 34] ++ S2L "a;b, c" ++ [chr 34; BLANK].
Proof. split; reflexivity. Qed.
(** Not the empty word: what follows is then taken as one word, with its blanks.  Nor a word of 128 characters: its closing quote is not seen,
    and all that follows, up to the end, is lost. *)
Theorem C93_quoted_refuted :
  a_init no_files [] ([chr 34; chr 34] ++ S2L " A B") = Some [S2L " A B"] /\
  a_init no_files [] (quoted (repeat (chr 88) 128) ++ S2L "A B") = Some [repeat (chr 88) 128].
Proof. split; vm_compute; reflexivity. Qed.
(** Without a text after the name. *)
Theorem C92_append_nothing_refuted : DataAppendLst w0 (S2L "A") = UB.
Proof. reflexivity. Qed.

Print Assumptions C92_union.
Print Assumptions C92_intersection.
Print Assumptions C92_difference.
Print Assumptions C92_product.
Print Assumptions C92_calc_fails.
Print Assumptions C92_sort.
Print Assumptions C92_count.
Print Assumptions C92_append.
Print Assumptions C92_append_new.
Print Assumptions C92_sort_in_place_refuted.
Print Assumptions C92_count_unknown_refuted.
Print Assumptions C92_unknown_refuted.
Print Assumptions C92_sort_name_refuted.
Print Assumptions C92_append_nothing_refuted.
Print Assumptions C93_expand.
Print Assumptions C93_lists.
Print Assumptions C93_expand_parts.
Print Assumptions C93_long_name_refuted.
Print Assumptions C93_longest_name_refuted.
Print Assumptions C93_overwritten_refuted.
Print Assumptions C93_levels_refuted.
Print Assumptions C93_expand_refuted.
Print Assumptions C93_quoted.
Print Assumptions C93_quoted_refuted.
