(** C105. Import of variables from files in the format DIF. *)
From Coq Require Import ZArith Ascii String List Bool Lia ZifyBool Floats.SpecFloat Sorted.
From Verif Require Import M_Base M_Report M_Time M_Names M_Lex M_Compile M_Bytes M_Exec M_Double M_Decimal M_Kdb M_Grep M_Ascii M_Import M_Export M_ImportDif
  S_Names S_Time S_Ascii S_ImportDif L_Decimal L_Time L_Ascii L_Ascii3 L_Gsample2 L_Import L_ImportDif T_Ascii T_Import.
From Verif Require Import S_Import L_Kdb.
Import ListNotations.
Open Scope Z_scope.

(** ** What is imported has one period *)
Theorem C105_one_period : forall rulefile file db, import_dif rulefile file = Done db -> exists s, vsample db = Some s /\ s_nb s = 1 /\ s_start s = s_end s.
Proof.
  intros rf file db. unfold import_dif. destruct (IMP_readrule rf); cbn [of_res ibind]; try discriminate.
  destruct (read_header (opened file)) as [[[s|] y]| | |] eqn:E; cbn [ibind]; try discriminate.
  destruct (import_dif_loop _ _ _ _ _); cbn [ibind]; try discriminate. intros H. injection H as <-. exists s. split; [reflexivity|]. exact (header_one _ _ _ E).
Qed.
Print Assumptions C105_one_period.

(** ** A table with one period is read *)
Lemma printable_line t : printable t -> printable (t ++ [LF]).
Proof. intros H. apply printable_app; [exact H|]. constructor; [right; reflexivity|constructor]. Qed.
Lemma printable_lines l : Forall printable l -> printable (lines l).
Proof. intros H. apply pr_flat. eapply Forall_impl; [|exact H]. intros t P. apply printable_line, P. Qed.
Ltac each := repeat lazymatch goal with |- Forall printable (_ :: _) => apply Forall_cons | |- Forall printable [] => apply Forall_nil end.
Ltac concrete := repeat (constructor; [first [left; vm_compute; discriminate|right; reflexivity]|]); constructor.
Lemma printable_quote t : printable t -> printable (dquote t).
Proof. intros H. unfold dquote. constructor; [left; vm_compute; discriminate|]. apply printable_app; [exact H|concrete]. Qed.
Lemma printable_number t : nt_ok t -> printable (text_of (chr 101) t).
Proof.
  intros (A & _ & F & X). unfold text_of. apply printable_app; [apply digits_printable, A|]. apply printable_app.
  - destruct (fp t); [constructor|]. constructor; [left; vm_compute; discriminate|]. apply digits_printable, F.
  - destruct (ep t) as [[g u]|]; [|constructor]. cbn [exp_part]. constructor; [left; vm_compute; discriminate|].
    constructor; [left; destruct g; vm_compute; discriminate|]. apply digits_printable, X.
Qed.
Lemma printable_dec z : 0 <= z -> printable (to_string z).
Proof. intros H. apply digits_printable, (to_string_spec z H). Qed.
Lemma lines_app a b : lines (a ++ b) = lines a ++ lines b. Proof. apply flat_map_app. Qed.
Lemma lines_row t v r : lines (concat [text_cell t; value_cell v] ++ r) =
  S2L "1,0" ++ LF :: dquote t ++ LF :: S2L "0," ++ text_of (chr 101) v ++ LF :: S2L "V" ++ LF :: lines r.
Proof. unfold text_cell, value_cell. cbn [concat app]. rewrite !lines_cons, !app_assoc_reverse. reflexivity. Qed.
Lemma rows_shape : forall l x, S2L "BOT" ++ rows_text x l =
  lines (S2L "BOT" :: concat [text_cell (fst x); value_cell (snd x)] ++ flat_map (fun x => tuple [text_cell (fst x); value_cell (snd x)]) l ++ [S2L "-1,0"; S2L "EOD"]).
Proof.
  induction l as [|x' l IH]; intros x; rewrite lines_cons, lines_row; cbn [rows_text flat_map app]; unfold row; [reflexivity|].
  rewrite IH. unfold tuple at 2. rewrite <- app_assoc. cbn [app]. rewrite (lines_cons (S2L "-1,0")). reflexivity.
Qed.
Lemma period_text p : valid_period p -> 1000 <= year p <= 9999 ->
  printable (period_to_string p) /\ unquoted (period_to_string p) /\ ~ In (chr 94) (period_to_string p) /\ Z.of_nat (length (period_to_string p)) < 40000.
Proof.
  intros V Y. pose proof V as (nb & Hs & St). split; [apply period_printable; assumption|].
  assert (nb <= 365) by (destruct Hs; lia). destruct (sub_upper _ _ Hs) as (_ & N0 & ND).
  assert (PT : period_to_string p = to_string (year p) ++ per p :: to_string (M_Time.step p)).
  { unfold period_to_string. rewrite N0. replace (year p =? 0) with false by lia. replace (M_Time.step p =? 0) with false by lia. reflexivity. }
  pose proof (to_string_short (year p) 4 ltac:(lia) ltac:(lia)) as L1. pose proof (to_string_short (M_Time.step p) 3 ltac:(lia) ltac:(lia)) as L2.
  assert (NC : forall z, 0 <= z -> forall c, In c (to_string z) -> 48 <= code c <= 57).
  { intros z Hz c I. destruct (to_string_spec z Hz) as (D & _). unfold digits in D. rewrite Forall_forall in D. specialize (D c I). unfold isdigit in D. lia. }
  assert (C : forall c, In c (period_to_string p) -> c = per p \/ 48 <= code c <= 57).
  { intros c I. rewrite PT in I. apply in_app_or in I as [I|[I|I]]; [right; apply (NC (year p)); [lia|exact I]|left; congruence|right; apply (NC (M_Time.step p)); [lia|exact I]]. }
  assert (D : forall k, k = 34 \/ k = 92 \/ k = 94 -> ~ In (chr k) (period_to_string p)).
  { intros k Hk I. destruct (C _ I) as [E|E]; [|destruct Hk as [-> | [-> | ->]]; vm_compute in E; intuition discriminate].
    rewrite <- E in Hs. destruct Hk as [-> | [-> | ->]]; inversion Hs. }
  split; [split; apply D; tauto|]. split; [apply D; tauto|]. rewrite PT, app_length. cbn [length]. lia.
Qed.
Lemma read_rows : forall rf rs news p rows, IMP_readrule rf = Ok rs -> valid_period p -> 1000 <= year p <= 9999 -> rows <> [] -> Z.of_nat (length rows) < 10 ^ 9 - 1 ->
  Forall (accepted VARIABLES) (map fst rows) -> Forall (fun x => short_number (snd x)) rows -> Forall2 (given rs) news (map fst rows) ->
  import_dif rf (dif_one p rows) = Done (mkVdb (Some (mkS p p 1)) (puts_some (combine news (map snd (values rows))) [])).
Proof.
  intros rf rs news p rows RR V Y NE LN A SN GN.
  assert (G : Forall good_row rows).
  { rewrite Forall_forall in *. intros x I. split; [apply A, in_map, I|apply SN, I]. }
  pose proof (parse_print p V Y) as PP. 
  destruct rows as [|x rows]; [congruence|]. inversion G as [|? ? Gx Gl]; subst. cbn [map] in GN. inversion GN as [|o ? news' ? Go Gn]; subst.
  destruct (period_text p V Y) as (P1 & P2 & P3 & P4).
  assert (PF : printable (dif_one p (x :: rows))).
  { apply printable_lines. apply Forall_app; split; [|apply Forall_app; split; [|apply Forall_app; split]].
    - unfold dif_table. each; lazymatch goal with
      | |- printable (_ ++ to_string _) => apply printable_app; [concrete|apply printable_dec; lia]
      | |- printable (dquote _) => apply printable_quote; constructor
      | |- _ => concrete end.
    - unfold tuple, text_cell. cbn [concat app]. each; lazymatch goal with |- printable (dquote _) => first [apply printable_quote, P1|concrete] | |- _ => concrete end.
    - apply Forall_flat_map. eapply Forall_impl; [|exact G]. intros [n t] [Ga [Gt _]]. cbn [fst snd] in *. unfold text_cell, value_cell, tuple. cbn [concat app]. each; lazymatch goal with
      | |- printable (dquote _) => apply printable_quote, (accepted_printable VARIABLES), Ga
      | |- printable (_ ++ text_of _ _) => apply printable_app; [concrete|apply printable_number, Gt]
      | |- _ => concrete end.
    - each; concrete. }
  unfold import_dif. rewrite RR. cbn [of_res ibind].
  unfold opened. rewrite (delivered_printable _ 0 PF).
  assert (E : dif_one p (x :: rows) = top 2 (Z.of_nat (length (x :: rows)) + 1) (S2L "1,0" ++ LF :: dquote (period_to_string p) ++ LF :: S2L "-1,0" ++ LF :: S2L "BOT" ++ rows_text x rows)).
  { rewrite rows_shape. unfold dif_one, top, tuple, dif_table, text_cell, value_cell. cbn [concat app flat_map]. rewrite !lines_cons, !app_assoc_reverse. reflexivity. }
  rewrite E, header_top by (cbn [length] in *; lia). unfold after_names, dif_periods. change (2 - 1 <=? 0) with false. cbv iota.
  rewrite str_cell by assumption. cbn [ibind of_res]. rewrite PP. cbn [of_res ibind]. change (2 - 1 =? 1) with true. cbv iota. cbn [ibind].
  unfold make_sample, difference. rewrite Ascii.eqb_refl. cbn [negb]. pose proof V as (nb & Hs & _). rewrite (sub_nb _ _ Hs). cbn [rbind].
  match goal with |- context [?e <? 0] => replace e with 0 by lia end. change (0 <? 0) with false. cbv iota. change (to_short (0 + 1)) with 1. cbn [s_nb]. change (2 - 1 =? 1) with true. cbn [negb]. cbv iota.
  match goal with |- context [skip_to "BOT" ?y] => set (y0 := y) end.
  assert (SK : skip_to "BOT" y0 = Done (true, mkY (rows_text x rows) Y_WORD (S2L "BOT") false)) by (destruct rows; reflexivity).
  rewrite SK. cbn [ibind]. rewrite (rows_read rs rows x o news'); [|unfold fuel_of; cbn [rest]|exact Gx|exact Gl|exact Go|exact Gn].
  - reflexivity.
  - assert (LR : forall l x, (length l < length (rows_text x l))%nat).
    { clear. induction l as [|y l IH]; intros x; cbn [rows_text length]; unfold row; [cbn; lia|]. specialize (IH y). repeat first [rewrite app_length|progress cbn [length]]. lia. }
    specialize (LR rows x). change (Z.to_nat 1) with 1%nat. lia.
Qed.
Theorem C105_read_partial : forall p rows, valid_period p -> 1000 <= year p <= 9999 -> rows <> [] -> Z.of_nat (length rows) < 10 ^ 9 - 1 ->
  database VARIABLES rows -> Forall (fun x => short_number (snd x)) rows ->
  import_dif None (dif_one p rows) = Done (mkVdb (Some (mkS p p 1)) (map (fun x => (fst x, [value_of_text (snd x)])) rows)).
Proof.
  intros p rows V Y NE LN [Srt A] SN. rewrite (read_rows None default_rules (map Some (map fst rows)) p rows eq_refl V Y NE LN A SN).
  - do 2 f_equal.
    assert (E : forall acc, puts_some (combine (map Some (map fst rows)) (map snd (values rows))) acc = puts (values rows) acc).
    { clear. induction rows as [|[n v] rows IH]; intros acc; [reflexivity|]. exact (IH (M_Kdb.put n [value_of_text v] acc)). }
    rewrite E, puts_sorted; [reflexivity|]. cbn [keys map app]. unfold values. rewrite map_map. exact Srt.
  - clear -A. induction A as [|n l An _ IH]; cbn [map]; constructor; [|exact IH]. split; [|exact An]. apply default_change.
    destruct An as (c & u & _ & L & _). exact L.
Qed.
Print Assumptions C105_read_partial.

Definition ex_rows : list (str * number_text) := [(S2L "A", mkNT (S2L "1") (S2L "5") None); (S2L "B_2", mkNT (S2L "20") [] (Some (true, S2L "1")))].
Definition ex_per : period := mkP 2000 2 "Q".
Example C105_read_ex :
  valid_period ex_per /\ 1000 <= year ex_per <= 9999 /\ ex_rows <> [] /\ Z.of_nat (length ex_rows) < 10 ^ 9 - 1 /\ database VARIABLES ex_rows /\ Forall (fun x => short_number (snd x)) ex_rows /\
  import_dif None (dif_one ex_per ex_rows) = Done (mkVdb (Some (mkS ex_per ex_per 1)) [(S2L "A", [d_decimal 15 (-1)]); (S2L "B_2", [d_decimal 2 0])]).
Proof.
  split; [exists 4; split; [constructor|cbn; lia]|]. split; [cbn; lia|]. split; [discriminate|]. split; [cbn; lia|].
  split; [is_database|]. split; [|vm_compute; reflexivity].
  apply Forall_cons; [|apply Forall_cons; [|apply Forall_nil]]; (split; [|cbn; lia]); cbn [snd]; (split; [|split; [discriminate|split]]); cbn; repeat (constructor; [reflexivity|]); try constructor; try discriminate; repeat (constructor; [reflexivity|]); constructor.
Qed.

(** With rules, and rows in any order: a variable has the value of the last row that a rule gives its name; the rows that no rule matches
    are left out. *)
Theorem C105_rules_partial : forall rs p rows, rs <> [] -> Forall writable_rule rs -> sane rs ->
  valid_period p -> 1000 <= year p <= 9999 -> rows <> [] -> Z.of_nat (length rows) < 10 ^ 9 - 1 ->
  Forall (accepted VARIABLES) (map fst rows) -> Forall (fun x => short_number (snd x)) rows ->
  (forall n m, In n (map fst rows) -> new_name rs n m -> accepted VARIABLES m) ->
  exists db, import_dif (Some (flat_map rule_line rs)) (dif_one p rows) = Done (mkVdb (Some (mkS p p 1)) db) /\ sorted db /\
    (forall k v, M_Kdb.find k db = Some v ->
      exists a n t b, rows = a ++ (n, t) :: b /\ v = [value_of_text t] /\ new_name rs n k /\ (forall n', In n' (map fst b) -> ~ new_name rs n' k)) /\
    (forall k, M_Kdb.find k db = None -> forall n, In n (map fst rows) -> ~ new_name rs n k).
Proof.
  intros rs p rows NE W S V Y NR LN A SN H. assert (KV : map fst (values rows) = map fst rows) by (unfold values; rewrite map_map; reflexivity).
  destruct (news_exist rs S (values rows)) as [news F]; [rewrite KV; exact H|]. eexists. split; [|split; [|split]].
  - apply (read_rows _ rs news p rows (C97_rules_partial rs NE W) V Y NR LN A SN). rewrite KV in F. exact F.
  - apply sorted_puts_some. constructor.
  - intros k v E. rewrite find_puts_some in E. pose proof (last_spec rs S k (values rows) news F) as L. destruct (last_for k _) as [w|]; [|discriminate E]. injection E as <-.
    destruct L as (a & n & b & E & Nn & L). unfold values in E. apply map_eq_app in E as (a' & r & -> & _ & E2). destruct r as [|[n' t] r]; [discriminate|]. cbn [map fst snd] in E2.
    injection E2 as -> <- E2. exists a', n, t, r. split; [reflexivity|]. split; [reflexivity|]. split; [exact Nn|]. intros m I. apply in_map_iff in I as ([m' t'] & <- & I).
    apply (L m' [value_of_text t']). rewrite <- E2. apply in_map_iff. exists (m', t'). split; [reflexivity|exact I].
  - intros k E n I. rewrite find_puts_some in E. pose proof (last_spec rs S k (values rows) news F) as L. destruct (last_for k _) as [w|]; [discriminate E|].
    apply in_map_iff in I as ([n' t] & <- & I). apply (L n' [value_of_text t]). apply in_map_iff. exists (n', t). split; [reflexivity|exact I].
Qed.
Print Assumptions C105_rules_partial.
(** CD is not taken; the rows AC and AB are both taken as XA, with the value of AB. *)
Definition ex_rows2 : list (str * number_text) := [(S2L "CD", mkNT (S2L "4") [] None); (S2L "AC", mkNT (S2L "1") (S2L "5") None); (S2L "B_1", mkNT (S2L "3") [] None); (S2L "AB", mkNT (S2L "2") [] None)].
Example C105_rules_ex : Forall (accepted VARIABLES) (map fst ex_rows2) /\ Forall (fun x => short_number (snd x)) ex_rows2 /\
  (forall n m, In n (map fst ex_rows2) -> new_name ex_rules n m -> accepted VARIABLES m) /\
  import_dif (Some (flat_map rule_line ex_rules)) (dif_one (mkP 2000 2 "Q") ex_rows2) =
    Done (mkVdb (Some (mkS (mkP 2000 2 "Q") (mkP 2000 2 "Q") 1)) [(S2L "NEW_1", [d_decimal 3 0]); (S2L "XA", [d_decimal 2 0])]).
Proof.
  split; [|split; [|split; [|vm_compute; reflexivity]]].
  - cbn [ex_rows2 map fst]. repeat (apply Forall_cons; [is_accepted|]). apply Forall_nil.
  - unfold ex_rows2. repeat (apply Forall_cons; [cbn [snd]; split; [split; [|split; [discriminate|split]]|cbn; lia]; cbn; repeat (constructor; [reflexivity|]); constructor|]). apply Forall_nil.
  - intros n m I H. apply (C97_change ex_rules n (proj2 (proj2 ex_rules_ok))) in H. cbn in I.
    destruct I as [<- | [<- | [<- | [<- | []]]]]; vm_compute in H; try discriminate H; injection H as <-; is_accepted.
Qed.

(** ** A file that was exported cannot be imported *)
Theorem C105_exported_refuted : forall rulefile rs rules na s vars cmts file, IMP_readrule rulefile = Ok rules ->
  0 <= s_nb s < 10 ^ 9 - 2 -> Z.of_nat (length vars) < 10 ^ 9 - 1 ->
  export_dif rs na (Some s) vars cmts = Ok file -> import_dif rulefile file = Thrown.
Proof.
  intros rf rs rules na s vars cmts file R S N X. unfold import_dif. rewrite R. cbn [of_res ibind].
  assert (F : exists r, file = top (s_nb s + 2) (Z.of_nat (length vars) + 1) (S2L "1,0" ++ LF :: dquote (S2L "COMMENT") ++ LF :: r)).
  { revert X. unfold export_dif. destruct (list_periods s) as [ps| |]; cbn [rbind]; try discriminate. destruct (renamed_vars rs vars) as [l| |]; cbn [rbind]; try discriminate.
    destruct (mapM _ l) as [rows| |]; cbn [rbind]; try discriminate. intros X. apply (f_equal (fun r => match r with Ok f => f | _ => [] end)) in X. cbv beta iota in X. rewrite <- X. clear X. eexists. change dif_lines with lines. change M_Export.quote with dquote. rewrite lines_app.
    rewrite !lines_cons. unfold top. repeat first [rewrite <- app_assoc|rewrite <- app_comm_cons]. reflexivity. }
  destruct F as (r & ->).
  set (t := S2L "1,0" ++ LF :: dquote (S2L "COMMENT") ++ LF :: r).
  assert (D : exists k, delivered 0 (top (s_nb s + 2) (Z.of_nat (length vars) + 1) t) = top (s_nb s + 2) (Z.of_nat (length vars) + 1) (S2L "1,0" ++ LF :: dquote (S2L "COMMENT") ++ LF :: delivered k r)).
  { assert (T : forall r, top (s_nb s + 2) (Z.of_nat (length vars) + 1) (S2L "1,0" ++ LF :: dquote (S2L "COMMENT") ++ LF :: r) =
      top (s_nb s + 2) (Z.of_nat (length vars) + 1) (S2L "1,0" ++ LF :: dquote (S2L "COMMENT") ++ [LF]) ++ r).
    { intros r0. unfold top. repeat first [rewrite <- app_assoc|rewrite <- app_comm_cons]. reflexivity. }
    unfold t. rewrite T. match goal with |- context [delivered 0 (?h ++ r)] => destruct (delivered_app h 0 r) as (k & E) end; [|exists k; rewrite E; symmetry; apply T].
    unfold top. repeat first [apply pr_app; [first [apply printable_dec; lia|concrete]|]|constructor; [first [left; vm_compute; discriminate|right; reflexivity]|]]. constructor. }
  destruct D as (k & D). unfold opened. rewrite D, header_top by lia. unfold after_names, dif_periods. replace (s_nb s + 2 - 1 <=? 0) with false by lia. cbv iota.
  rewrite str_cell; [reflexivity| | |vm_compute; reflexivity]; [split|]; cbn; intros H; repeat (destruct H as [H|H]; [discriminate H|]); exact H.
Qed.
Print Assumptions C105_exported_refuted.
Definition ex_vars : smap (list dbl) := [(S2L "A", [d_decimal 15 (-1)])].
Example C105_exported_ex : IMP_readrule None = Ok default_rules /\ list_periods (mkS (mkP 2000 1 "Y") (mkP 2000 1 "Y") 1) = Ok [S2L "2000Y1"] /\
  match export_dif default_rules (S2L "#N/A") (Some (mkS (mkP 2000 1 "Y") (mkP 2000 1 "Y") 1)) ex_vars [] with Ok file => import_dif None file = Thrown | _ => False end.
Proof. split; [reflexivity|]. split; [reflexivity|]. vm_compute. reflexivity. Qed.

(** ** A table with two periods or more cannot be imported *)
Theorem C105_two_periods_refuted : forall rulefile rules v u p q rest, IMP_readrule rulefile = Ok rules -> 3 <= v < 10 ^ 9 -> 0 < u < 10 ^ 9 ->
  valid_period p -> 1000 <= year p <= 9999 -> valid_period q -> 1000 <= year q <= 9999 ->
  import_dif rulefile (lines (dif_table v u ++ tuple [text_cell (S2L "CODE"); text_cell (period_to_string p); text_cell (period_to_string q)]) ++ rest) = Undefined.
Proof.
  intros rf rules v u p q rest R V U Vp Yp Vq Yq. unfold import_dif. rewrite R. cbn [of_res ibind].
  destruct (period_text p Vp Yp) as (P1 & P2 & P3 & P4). destruct (period_text q Vq Yq) as (Q1 & Q2 & Q3 & Q4).
  set (h := lines _).
  assert (PH : printable h).
  { apply printable_lines. apply Forall_app. split.
    - unfold dif_table. each; lazymatch goal with
      | |- printable (_ ++ to_string _) => apply printable_app; [concrete|apply printable_dec; lia]
      | |- printable (dquote _) => apply printable_quote; constructor
      | |- _ => concrete end.
    - unfold tuple, text_cell. cbn [concat app]. each; lazymatch goal with |- printable (dquote _) => first [apply printable_quote, P1|apply printable_quote, Q1|concrete] | |- _ => concrete end. }
  destruct (delivered_app h 0 rest PH) as (k & E). unfold opened. rewrite E.
  assert (T : h ++ delivered k rest = top v u (S2L "1,0" ++ LF :: dquote (period_to_string p) ++ LF :: S2L "1,0" ++ LF :: dquote (period_to_string q) ++ LF :: delivered k rest)).
  { unfold h, tuple, text_cell, dif_table. cbn [concat app]. rewrite !lines_cons. unfold top. repeat first [rewrite <- app_assoc|rewrite <- app_comm_cons]. reflexivity. }
  rewrite T, header_top by lia. unfold after_names, dif_periods. replace (v - 1 <=? 0) with false by lia. cbv iota.
  rewrite str_cell by assumption. cbn [ibind]. rewrite (parse_print p Vp Yp). cbn [of_res ibind]. replace (v - 1 =? 1) with false by lia. cbv iota.
  rewrite str_cell by assumption. cbn [ibind]. rewrite (parse_print q Vq Yq). reflexivity.
Qed.
Print Assumptions C105_two_periods_refuted.
Example C105_two_periods_ex : valid_period ex_per /\ valid_period (mkP 2000 3 "Q") /\
  import_dif None (lines (dif_table 3 2 ++ tuple [text_cell (S2L "CODE"); text_cell (S2L "2000Q2"); text_cell (S2L "2000Q3")] ++
    tuple [text_cell (S2L "A"); [S2L "0,1.5"; S2L "V"]; [S2L "0,2"; S2L "V"]] ++ [S2L "-1,0"; S2L "EOD"])) = Undefined.
Proof. split; [exists 4; split; [constructor|cbn; lia]|]. split; [exists 4; split; [constructor|cbn; lia]|]. vm_compute. reflexivity. Qed.
(** A cell that announces a text where a value is expected, as #N/A between quotes, with or without its text. *)
Theorem C105_text_value_refuted : forall t, In t [S2L """#N/A"""; S2L "V"; S2L "NA"] ->
  import_dif None (lines (dif_table 2 2 ++ tuple [text_cell (S2L "CODE"); text_cell (S2L "2000Q2")] ++
    tuple [text_cell (S2L "A"); [S2L "1,0"; t]] ++ [S2L "-1,0"; S2L "EOD"])) = Undefined.
Proof. intros t [<- | [<- | [<- | []]]]; vm_compute; reflexivity. Qed.
Print Assumptions C105_text_value_refuted.

(** A tuple without cells, or with a marker in the place of its name, ends the import: the rows after it are lost without an error. *)
Theorem C105_empty_tuple_refuted : forall t, In t [[S2L "-1,0"; S2L "BOT"]; [S2L "-1,0"; S2L "BOT"; S2L "-1,0"; dquote (S2L "C"); S2L "0,3"; S2L "V"]] ->
  import_dif None (lines (dif_table 2 4 ++ tuple [text_cell (S2L "CODE"); text_cell (S2L "2000Q2")] ++
    tuple [text_cell (S2L "A"); [S2L "0,1"; S2L "V"]] ++ t ++ tuple [text_cell (S2L "B"); [S2L "0,2"; S2L "V"]] ++ [S2L "-1,0"; S2L "EOD"])) =
  Done (mkVdb (Some (mkS ex_per ex_per 1)) [(S2L "A", [d_decimal 1 0])]).
Proof. intros t [<- | [<- | []]]; vm_compute; reflexivity. Qed.
Print Assumptions C105_empty_tuple_refuted.
(** A file that does not start with the word TABLE, whatever follows. *)
Theorem C105_not_a_table_refuted : forall rest, import_dif None (S2L "DATA" ++ LF :: rest) = Undefined.
Proof. intros rest. reflexivity. Qed.
Print Assumptions C105_not_a_table_refuted.
Example C105_not_a_table_ex : import_dif None (S2L "DATA" ++ LF :: dif_one ex_per ex_rows) = Undefined.
Proof. vm_compute. reflexivity. Qed.
