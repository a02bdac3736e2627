(** C95: the scan of formulas finds all their variables and scalars. *)
From Coq Require Import ZArith Ascii String List Bool Lia ZifyBool Sorting.Sorted.
From Verif Require L_Ascii.
From Verif Require Import M_Base M_Time M_Names M_Lex M_Kdb S_Names L_Names L_Kdb L_Time M_Report S_Report L_Report5 M_Lists S_Lists L_Lists L_Lists2 S_Compare L_Compare T_Compare M_Scan.
Import ListNotations.
Open Scope Z_scope.

(** [n] is a name of a formula of the database. *)
Definition named (kdb : smap (list formula)) (n : str) : Prop := exists k fs f, In (k, fs) kdb /\ In (Some f) fs /\ In n f.
(** Names of formulas: those of scalars and of variables. *)
Definition proper (kdb : smap (list formula)) : Prop := forall n, named kdb n -> accepted SCALARS n \/ accepted VARIABLES n /\ is_coefficient n = false.

Lemma coefficient_iff n : is_coefficient n = true <-> accepted SCALARS n.
Proof. unfold is_coefficient. rewrite <- regex_iff. destruct n; [split; [discriminate|intros H; discriminate H]|reflexivity]. Qed.
Lemma key_accepted ty n : accepted ty n -> to_key (mode_of ty) n = n.
Proof. apply L_Ascii.accepted_key. Qed.
Lemma set_name_ok ty d n : accepted ty n -> set_name ty d n = Some (M_Kdb.put n tt d).
Proof. intros A. unfold set_name. rewrite key_accepted by exact A. apply check_name_iff in A. rewrite A. reflexivity. Qed.
Lemma keys_put n d x : In x (keys (M_Kdb.put n tt d)) <-> x = n \/ In x (keys d).
Proof.
  split; [apply keys_put_in|]. intros H. assert (P : forall (m : names_db) y, M_Kdb.find y m <> None <-> In y (keys m)).
  { intros m y. rewrite find_None. destruct (in_dec str_dec y (keys m)); tauto. }
  apply P. rewrite find_put. destruct (str_eqb x n) eqn:E; [discriminate|]. apply P. destruct H as [->|H]; [rewrite str_eqb_refl in E; discriminate|exact H].
Qed.
Section Scan.
Variable ins : str -> bool.
Definition all_proper (l : list str) : Prop := forall n, In n l -> accepted SCALARS n \/ accepted VARIABLES n /\ is_coefficient n = false.
Definition extends (l : list str) (exo scal e s : names_db) : Prop :=
  (sorted exo -> sorted e) /\ (sorted scal -> sorted s) /\
  (forall x, In x (keys e) <-> In x (keys exo) \/ In x l /\ is_coefficient x = false /\ ins x = false) /\
  (forall x, In x (keys s) <-> In x (keys scal) \/ In x l /\ is_coefficient x = true).
Lemma clec_names_is l : forall exo scal, all_proper l -> exists e s, clec_names ins l exo scal = Some (e, s) /\ extends l exo scal e s.
Proof.
  induction l as [|n l IH]; intros exo scal P.
  - exists exo, scal. split; [reflexivity|]. repeat split; try tauto; cbn; tauto.
  - assert (Pl : all_proper l) by (intros x Hx; apply P; right; exact Hx). cbn [clec_names]. pose proof (P n (or_introl eq_refl)) as Pn. destruct (is_coefficient n) eqn:C.
    + assert (A : accepted SCALARS n) by (apply coefficient_iff, C). rewrite set_name_ok by exact A. destruct (IH exo (M_Kdb.put n tt scal) Pl) as (e & s & E & X1 & X2 & X3 & X4).
      exists e, s. split; [exact E|]. split; [exact X1|]. split; [intros S; apply X2, sorted_put, S|]. split.
      * intros x. rewrite X3. cbn [In]. split; [tauto|]. intros [H|[[->|H] Q]]; [tauto| |tauto]. destruct Q; congruence.
      * intros x. rewrite X4, keys_put. cbn [In]. split; [intros [[->|H]|H]; tauto|]. intros [H|[[->|H] Q]]; tauto.
    + destruct Pn as [A|[A _]]; [apply coefficient_iff in A; congruence|]. destruct (ins n) eqn:I.
      * destruct (IH exo scal Pl) as (e & s & E & X1 & X2 & X3 & X4). exists e, s. split; [exact E|]. split; [exact X1|]. split; [exact X2|]. split.
        -- intros x. rewrite X3. cbn [In]. split; [tauto|]. intros [H|[[->|H] Q]]; [tauto| |tauto]. destruct Q; congruence.
        -- intros x. rewrite X4. cbn [In]. split; [tauto|]. intros [H|[[->|H] Q]]; [tauto|congruence|tauto].
      * rewrite set_name_ok by exact A. destruct (IH (M_Kdb.put n tt exo) scal Pl) as (e & s & E & X1 & X2 & X3 & X4).
        exists e, s. split; [exact E|]. split; [intros S; apply X1, sorted_put, S|]. split; [exact X2|]. split.
        -- intros x. rewrite X3, keys_put. cbn [In]. split; [intros [[->|H]|H]; tauto|]. intros [H|[[->|H] Q]]; tauto.
        -- intros x. rewrite X4. cbn [In]. split; [tauto|]. intros [H|[[->|H] Q]]; [tauto|congruence|tauto].
Qed.
Definition names_of (fs : list formula) : list str := flat_map (fun f : formula => match f with Some l => l | None => [] end) fs.
Lemma scan_formulas_is fs : forall exo scal, all_proper (names_of fs) -> exists e s, scan_formulas ins fs exo scal = Some (e, s) /\ extends (names_of fs) exo scal e s.
Proof.
  induction fs as [|f fs IH]; intros exo scal P.
  - exists exo, scal. split; [reflexivity|]. repeat split; try tauto; cbn; tauto.
  - cbn [scan_formulas names_of flat_map] in *. fold (names_of fs) in *. assert (Pf : all_proper (names_of fs)) by (intros x Hx; apply P, in_or_app; right; exact Hx).
    destruct f as [l|]; cbn [K_clecscan].
    + destruct (clec_names_is l exo scal) as (e & s & -> & X1 & X2 & X3 & X4); [intros x Hx; apply P, in_or_app; left; exact Hx|].
      destruct (IH e s Pf) as (e' & s' & E & Y1 & Y2 & Y3 & Y4). exists e', s'. split; [exact E|]. split; [tauto|]. split; [tauto|]. split; intros x.
      * rewrite Y3, X3, in_app_iff. tauto.
      * rewrite Y4, X4, in_app_iff. tauto.
    + exact (IH exo scal Pf).
Qed.
End Scan.
Lemma named_names kdb n : named kdb n <-> In n (names_of (flat_map snd kdb)).
Proof.
  unfold names_of, named. rewrite in_flat_map. split.
  - intros (k & fs & f & A & B & C). exists (Some f). split; [|exact C]. apply in_flat_map. exists (k, fs). split; [exact A|exact B].
  - intros (f & A & B). apply in_flat_map in A as ([k fs] & A & C). destruct f as [l|]; [|contradiction]. exists k, fs, l. repeat split; assumption.
Qed.
Lemma digits_room j : 0 <= j < 10 ^ 13 -> (length (to_string j) <= 13)%nat.
Proof.
  intros H. unfold to_string. replace (j <? 0) with false by lia. destruct (dec_nonneg_read j 0 O [] ltac:(lia)) as (k & _ & _ & -> & _ & [L|L]); [|lia].
  assert (Z.of_nat k - 1 < 13); [|lia]. apply (Z.pow_lt_mono_r_iff 10); lia.
Qed.
Lemma sorted_those (d : names_db) (P : str -> Prop) : sorted d -> (forall x, In x (keys d) <-> P x) -> exactly_those P (keys d).
Proof. intros S H. split; [exact S|exact H]. Qed.

(** For identities and equations the variables are those that the database does not define; for tables, all of them. *)
Theorem C95_scan : forall ty ws kdb, ty = IDENTITIES \/ ty = EQUATIONS \/ ty = TABLES -> kdb <> [] -> proper kdb -> Z.of_nat (length (names_of (flat_map snd kdb))) < 10 ^ 13 ->
  exists ws' exo scal, DataScan ty ws kdb = Ok (true, ws') /\ list_holds ws' (S2L "_EXO") exo /\ list_holds ws' (S2L "_SCAL") scal /\
    exactly_those (fun n => named kdb n /\ is_coefficient n = false /\ (ty = TABLES \/ ~ In n (keys kdb))) exo /\
    exactly_those (fun n => named kdb n /\ is_coefficient n = true) scal /\
    (forall other, (forall base, In base [S2L "_EXO"; S2L "_SCAL"] -> ~ same_name other base /\ forall j, 0 <= j -> ~ same_name other (base ++ to_string j)) -> list_of ws' other = list_of ws other).
Proof.
  intros ty ws kdb Ty NE P Lg. unfold DataScan. destruct kdb as [|x0 kdb']; [congruence|]. remember (x0 :: kdb') as kdb eqn:Ek. clear Ek x0 kdb' NE.
  destruct (scan_formulas_is (inside ty kdb) (flat_map snd kdb) [] []) as (e & s & E & X1 & X2 & X3 & X4); [intros n Hn; apply P, named_names, Hn|].
  assert (Se : sorted e) by (apply X1, sorted_nil). assert (Ss : sorted s) by (apply X2, sorted_nil).
  assert (Len : forall d : names_db, sorted d -> (forall x, In x (keys d) -> In x (names_of (flat_map snd kdb))) -> Z.of_nat (length (keys d)) < 10 ^ 13).
  { intros d S H. pose proof (NoDup_incl_length (sorted_NoDup d S) H). lia. }
  assert (Le : Z.of_nat (length (keys e)) < 10 ^ 13) by (apply Len; [exact Se|]; intros x Hx; apply X3 in Hx as [[]|Hx]; tauto).
  assert (Ls : Z.of_nat (length (keys s)) < 10 ^ 13) by (apply Len; [exact Ss|]; intros x Hx; apply X4 in Hx as [[]|Hx]; tauto).
  assert (Ee : forallb element (keys e) = true).
  { apply forallb_forall. intros x Hx. apply X3 in Hx as [[]|(Hx & C & _)]. apply named_names in Hx. destruct (P x Hx) as [A|[A _]]; [apply coefficient_iff in A; congruence|]. apply (accepted_element VARIABLES), A. }
  assert (Es : forallb element (keys s) = true).
  { apply forallb_forall. intros x Hx. apply X4 in Hx as [[]|(Hx & C)]. apply (accepted_element SCALARS), coefficient_iff, C. }
  assert (Rm : forall base l, (length base <= 5)%nat -> Z.of_nat (length l) < 10 ^ 13 -> room_for_numbers base l).
  { intros base l Lb Ll j Hj. rewrite app_length. pose proof (digits_room j ltac:(lia)). lia. }
  destruct (KL_lst_kept ws (S2L "_SCAL") (keys s) 200) as (ws1 & K1 & H1 & O1); [reflexivity|lia|exact Es|right; right; apply Rm; [vm_compute; lia|exact Ls]|].
  destruct (KL_lst_kept ws1 (S2L "_EXO") (keys e) 200) as (ws2 & K2 & H2 & O2); [reflexivity|lia|exact Ee|right; right; apply Rm; [vm_compute; lia|exact Le]|].
  rewrite E, K1, K2. exists ws2, (keys e), (keys s). split; [reflexivity|].
  assert (Key : forall j, 0 <= j -> (length (to_string j) <= 13)%nat -> to_key UPPER_CASE (S2L "_EXO" ++ to_string j) = S2L "_EXO" ++ to_string j /\ to_key UPPER_CASE (S2L "_SCAL" ++ to_string j) = S2L "_SCAL" ++ to_string j).
  { intros j J L. split.
    - rewrite list_name_key; [exact (sub_name_upper (S2L "_EXO") j J)|]. apply (sub_name_name (S2L "_EXO") j); [reflexivity|exact J|]. unfold sub_name. rewrite app_length. change (length (S2L "_EXO")) with 4%nat. lia.
    - rewrite list_name_key; [exact (sub_name_upper (S2L "_SCAL") j J)|]. apply (sub_name_name (S2L "_SCAL") j); [reflexivity|exact J|]. unfold sub_name. rewrite app_length. change (length (S2L "_SCAL")) with 5%nat. lia. }
  split; [destruct (H2 ws2) as [A _]; [intros x _; reflexivity|exact A]|]. split.
  { destruct (H1 ws2) as [A _]; [|exact A]. intros x Hx. apply O2.
    - intros Sx. unfold same_name, sub_name in *. destruct Hx as [Hx|(j & Hj & Hx)]; [rewrite Hx in Sx; discriminate Sx|]. rewrite Sx in Hx.
      rewrite (proj2 (Key j ltac:(lia) ltac:(apply digits_room; lia))) in Hx. discriminate Hx.
    - intros i Hi Sx. unfold same_name, sub_name in *. rewrite (proj1 (Key i ltac:(lia) ltac:(apply digits_room; lia))) in Sx.
      destruct Hx as [Hx|(j & Hj & Hx)]; [rewrite Sx in Hx; discriminate Hx|]. rewrite Sx in Hx. rewrite (proj2 (Key j ltac:(lia) ltac:(apply digits_room; lia))) in Hx. discriminate Hx. }
  split; [|split].
  - apply sorted_those; [exact Se|]. intros x. rewrite X3, <- named_names. cbn [In keys map]. 
    assert (I : is_coefficient x = false -> named kdb x -> (inside ty kdb x = false <-> ty = TABLES \/ ~ In x (keys kdb))).
    { intros C N. destruct (P x N) as [A|[A _]]; [apply coefficient_iff in A; congruence|]. unfold inside.
      destruct Ty as [-> | [-> | ->]]; [| |tauto]; (change (mode_of IDENTITIES) with (mode_of VARIABLES) || change (mode_of EQUATIONS) with (mode_of VARIABLES)); rewrite (key_accepted VARIABLES x A);
        rewrite <- find_None; destruct (M_Kdb.find x kdb); split; try tauto; try discriminate; intros [Q|Q]; discriminate Q. }
    tauto.
  - apply sorted_those; [exact Ss|]. intros x. rewrite X4, <- named_names. cbn [In keys map]. tauto.
  - intros other D. rewrite O2, O1; [reflexivity| | | |].
    + apply D. right. left. reflexivity.
    + intros j Hj. apply (D (S2L "_SCAL")); [right; left; reflexivity|lia].
    + apply D. left. reflexivity.
    + intros j Hj. apply (D (S2L "_EXO")); [left; reflexivity|lia].
Qed.

(** * Cases *)
Definition idts : smap (list formula) :=
  [(S2L "A", [Some [S2L "B"; S2L "c1"; S2L "X"]]); (S2L "B", [Some [S2L "Y"; S2L "A"; S2L "c2"; S2L "X"]])].
Example proper_case : proper idts.
Proof.
  intros n H. apply named_names in H. cbn in H.
  repeat (destruct H as [<-|H]; [first [left; apply regex_iff; reflexivity|right; split; [apply regex_iff; reflexivity|reflexivity]]|]). contradiction.
Qed.
Example scan_case : exists ws', DataScan IDENTITIES [] idts = Ok (true, ws') /\ list_of ws' (S2L "_EXO") = Some (S2L "X;Y") /\ list_of ws' (S2L "_SCAL") = Some (S2L "c1;c2").
Proof. eexists. repeat split; vm_compute; reflexivity. Qed.
Example tables_case : exists ws', DataScan TABLES [] idts = Ok (true, ws') /\ list_of ws' (S2L "_EXO") = Some (S2L "A;B;X;Y").
Proof. eexists. split; vm_compute; reflexivity. Qed.
(** An empty database: the command fails and the lists of an earlier scan stay. *)
Theorem C95_empty_refuted : forall ws, DataScan EQUATIONS ws [] = Ok (false, ws).
Proof. reflexivity. Qed.
(** After a scan with many names, a scan with few names leaves the old sublists. *)
Definition many : list str := map (fun j => S2L "V" ++ to_string j) (seqZ 100 200).
Theorem C95_old_sublists_refuted : exists ws1 ws2 t, DataScan IDENTITIES [] [(S2L "A", [Some many])] = Ok (true, ws1) /\ DataScan IDENTITIES ws1 idts = Ok (true, ws2) /\
  list_of ws2 (S2L "_EXO") = Some (S2L "X;Y") /\ list_of ws2 (S2L "_EXO0") = Some t /\ (100 < length t)%nat.
Proof. do 3 eexists. split; [vm_compute; reflexivity|]. split; [vm_compute; reflexivity|]. split; [vm_compute; reflexivity|]. split; [vm_compute; reflexivity|]. apply Nat.ltb_lt. vm_compute. reflexivity. Qed.

Print Assumptions C95_scan.
Print Assumptions C95_empty_refuted.
Print Assumptions C95_old_sublists_refuted.
