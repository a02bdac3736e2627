(** Theorems on the cells of a table printed on a generalised sample. *)
From Coq Require Import ZArith Ascii String List Bool Lia QArith Qcanon Field.
From Verif Require Import M_Base M_Time M_Names M_Lex M_Compile M_Bytes M_Exec M_Exact M_Double M_Real M_Ascii M_Gsample M_Calc
  S_Time S_Gsample S_Calc L_Time L_Gsample L_Gsample2 L_Calc L_Freq6 L_Spline2 T_Gsample.
Import ListNotations.
Open Scope Z_scope.

(** * C81: the value of a cell *)

(** A column whose files are loaded shows the value that the manual gives, for every formula, divisor, pair of periods and
    operation, or not available when that value does not exist. *)
Theorem C81_value : forall A real_bytes files c text div x d, num A (ofZ A 1) = true -> M_Exec.eq A (ofZ A 1) (ofZ A 0) = false ->
  compiled real_bytes text x -> div_ok (compiled real_bytes) div d -> proper (view c) -> served A real_bytes files text div (view c) ->
  COL_calc A files c x d = Ok (Some (shown A (na A) (col_value A (cell_on A real_bytes files text div) (view c)))).
Proof. intros. apply (COL_calc_ok A real_bytes); assumption. Qed.
Print Assumptions C81_value.

(** The whole table: the sample is compiled, its columns are multiplied by the columns of the table, and the value of the cell of
    column [d] of the table in column [j] of the sample is in place d + j * (number of columns of the table); a cell that is no
    formula gives 0. *)
Definition cells_ok (real_bytes : str -> list Z) (line : list (option (str * option str))) (cells : list cell) : Prop :=
  Forall2 (fun s o => match s, o with
    | Some (text, div), Some (x, d) => compiled real_bytes text x /\ div_ok (compiled real_bytes) div d
    | None, None => True | _, _ => False end) line cells.
Theorem C81_table : forall A real_bytes files e w g c2 line cells r,
  num A (ofZ A 1) = true -> M_Exec.eq A (ofZ A 1) (ofZ A 0) = false ->
  describes e w -> wf_gs w g -> mild_gs w g -> line <> [] -> cells_ok real_bytes line cells ->
  (forall v text div, In v (v_cols w g) -> In (Some (text, div)) line -> served A real_bytes files text div v) ->
  exists cols b vals, COL_cc e c2 (p_gs g) = Done (Some cols, b)
  /\ COL_exec A files (fst (COL_resize (length line) r cols)) cells = Ok (true, vals)
  /\ length vals = (length (v_cols w g) * length line)%nat
  /\ forall j d v, nth_error (v_cols w g) j = Some v -> (d < length line)%nat ->
     nth_error vals (d + j * length line) = Some (match nth_error line d with
       | Some (Some (text, div)) => shown A (na A) (col_value A (cell_on A real_bytes files text div) v)
       | _ => ofZ A 0 end).
Proof.
  intros A real_bytes files e w g c2 line cells r N1 Z1 D Wf M Ne Co Sv.
  destruct (COL_cc_ok e w g [] c2 D Wf M I) as (cols & b & E & V & K). rewrite app_nil_r in E.
  assert (Ll : length line = length cells) by (clear - Co; induction Co; cbn; congruence).
  set (val j d := match nth_error (v_cols w g) j, nth_error line d with
     | Some v, Some (Some (text, div)) => shown A (na A) (col_value A (cell_on A real_bytes files text div) v) | _, _ => na A end).
  assert (Lc : length (v_cols w g) = length cols) by (rewrite <- V; apply map_length).
  destruct (COL_exec_ok A files cols cells r val) as (vals & Ex & Lv & Nv).
  - intros ->. destruct line; [congruence|discriminate].
  - intros d x dv j c Hd Hj.
    assert (X : exists text div, nth_error line d = Some (Some (text, div)) /\ compiled real_bytes text x /\ div_ok (compiled real_bytes) div dv).
    { clear - Co Hd. revert d Hd. induction Co as [|s o l m H _ IH]; intros d Hd; [destruct d; discriminate|].
      destruct d as [|d]; [|exact (IH d Hd)]. cbn in Hd. injection Hd as ->. destruct s as [[text div]|]; [|contradiction].
      exists text, div. split; [reflexivity|exact H]. }
    destruct X as (text & div & El & Cx & Cd).
    assert (Hv : nth_error (v_cols w g) j = Some (view c)) by (rewrite <- V, nth_error_map, Hj; reflexivity).
    unfold val. rewrite Hv, El. apply (COL_calc_ok A real_bytes); auto.
    + rewrite Forall_forall in K. destruct (K c (nth_error_In _ _ Hj)) as (V0 & V1 & _). split; [exact V0|]. cbn [view v_1 v_op v_0].
      destruct (opy c); try reflexivity; apply V1; discriminate.
    + apply Sv; [exact (nth_error_In _ _ Hv)|exact (nth_error_In _ _ El)].
  - exists cols, b, vals. split; [exact E|]. rewrite Ll, Lc. split; [exact Ex|]. split; [exact Lv|].
    intros j d v Hj Hd.
    assert (Hjl : (j < length cols)%nat) by (rewrite <- Lc; apply nth_error_Some; rewrite Hj; discriminate).
    assert (Hi : (d + j * length cells < length vals)%nat).
    { rewrite Lv. assert (X : (S j * length cells <= length cols * length cells)%nat) by (apply Nat.mul_le_mono_r; exact Hjl). unfold cell in *. cbn in X. lia. }
    rewrite (nth_error_nth' vals (ofZ A 0)) by exact Hi. f_equal. rewrite Nv by assumption.
    unfold val. rewrite Hj.
    assert (X : match nth_error line d, nth_error cells d with Some (Some _), Some (Some _) => True | Some None, Some None => True | None, None => True | _, _ => False end).
    { clear - Co. revert d. induction Co as [|s o l m H _ IH]; intros d; [destruct d; exact I|].
      destruct d as [|d]; [|exact (IH d)]. cbn. destruct s as [[]|], o as [[]|]; try contradiction; exact I. }
    unfold cell in *. destruct (nth_error line d) as [[[text div]|]|], (nth_error cells d) as [[|]|]; try contradiction; reflexivity.
Qed.
Print Assumptions C81_table.

(** Yearly variables from 2000 to 2003; B is 0 in 2003. *)
Definition c_env (a : list (option Z)) : env double :=
  d_env (mkP 2000 1 "Y") 4 [(S2L "A", a); (S2L "B", [Some 2; Some 2; Some 4; Some 0])] [].
Definition c_files : list (option (env double)) := [Some (c_env [Some 10; Some 20; Some 30; None]); Some (c_env [Some 10; Some 10; Some 40; None])].
Definition c_reals : str -> list Z := fun _ => repeat 0 8.
Definition clec_of (text : str) : clec :=
  match fst (compile_text text []) with
  | C_ok atoms => match encode c_reals (names_of atoms) atoms with Ok code => mkX (names_of atoms) code | _ => mkX [] [] end
  | _ => mkX [] []
  end.
Definition c_line : list (option (str * option str)) := [None; Some (S2L "A", None); Some (S2L "A", Some (S2L "B"))].
Definition c_cells : list cell := map (option_map (fun '(t, d) => (clec_of t, option_map clec_of d))) c_line.
Definition w_c : world := mkW (mkP 2000 1 "Y") (mkP 2003 1 "Y") (mkP 2026 1 "Y").
Definition e_c : genv := mkE (Some (mkS (mkP 2000 1 "Y") (mkP 2003 1 "Y") 4)) 20261117 47.
Definition Y (y : Z) : gper := mkGP (AYear y) None [].
(** A value, a growth, the sum backwards, the difference of two files, and a value that is not available. *)
Definition g_c : gs :=
  More (Item (One (Y 2001)) []) (More (Item (Two (Y 2002) GRT (Y 2000)) []) (More (Item (Two (Y 2002) ADD (Y 2000)) [])
  (More (Item (One (Y 2002)) [Files (F2 2 DIFF 1) []]) (Last (Item (One (Y 2003)) []))))).
Lemma d_c : describes e_c w_c.
Proof.
  assert (V : forall y, valid_period (mkP y 1 "Y")) by (intros y; exists 1; split; [constructor|cbn; lia]).
  split; [exists 4; reflexivity|]. split; [apply V|]. split; [apply V|]. split; [apply V|].
  split; [reflexivity|]. split; [reflexivity|]. split; [reflexivity|cbn; auto].
Qed.
Lemma c_name (A : arith) va sc sp n (f : Z -> F A) t : In n [S2L "A"; S2L "B"] -> va n = Some f ->
  exists v, evaluate A (Build_env A va sc sp) c_reals n t = Ok v.
Proof. intros [<- | [<- | []]] H; vm_compute in H |- *; rewrite H; eexists; reflexivity. Qed.
Lemma c_calculable a n : In n [S2L "A"; S2L "B"] -> calculable double c_reals (c_env a) n.
Proof. intros H t. unfold c_env, d_env. destruct H as [<- | [<- | []]]; (eapply c_name; [cbn; auto|reflexivity]). Qed.
Lemma c_compiled n : In n [S2L "A"; S2L "B"] -> compiled c_reals n (clec_of n).
Proof. intros [<- | [<- | []]]; (eexists; eexists; split; [vm_compute; reflexivity|split; vm_compute; reflexivity]). Qed.
Example C81_ex :
  wf_gs w_c g_c /\ mild_gs w_c g_c /\ cells_ok c_reals c_line c_cells
  /\ (forall v text div, In v (v_cols w_c g_c) -> In (Some (text, div)) c_line -> served double c_reals c_files text div v)
  /\ p_gs g_c = S2L "2001;2002/2000;2002+2000;2002[2-1];2003"
  /\ exists cols b vals, COL_cc e_c true (p_gs g_c) = Done (Some cols, b)
     /\ COL_exec double c_files (fst (COL_resize 3 1 cols)) c_cells = Ok (true, vals)
     /\ vals = [d_ofZ 0; d_ofZ 20; d_ofZ 10; d_ofZ 0; d_ofZ 200; d_ofZ 50; d_ofZ 0; d_ofZ 60; dvd double (d_ofZ 45) (d_ofZ 2);
                d_ofZ 0; d_ofZ 10; dvd double (d_ofZ 5) (d_ofZ 2); d_ofZ 0; d_na; d_na].
Proof.
  split; [cbn; well|]. split; [vm_compute; well|]. split.
  { unfold c_line, c_cells, cells_ok. cbn [map option_map]. repeat constructor; try (apply c_compiled; cbn; auto). }
  split.
  { intros v text div Hv Hl.
    assert (K : (text = S2L "A") /\ (div = None \/ div = Some (S2L "B"))) by (cbn in Hl; destruct Hl as [H|[H|[H|[]]]]; try discriminate; injection H as <- <-; auto).
    destruct K as (-> & K).
    assert (Sf : forall f p, (f = 1 \/ f = 2) -> per p = "Y"%char -> serves double c_reals c_files p (S2L "A") div f).
    { intros f p [-> | ->] Hp; eexists; (split; [reflexivity|split; [symmetry; exact Hp|split; [apply c_calculable; cbn; auto|]]]);
        (destruct K as [-> | ->]; [exact I|apply c_calculable; cbn; auto]). }
    vm_compute in Hv. unfold served. repeat (destruct Hv as [<- | Hv]); [..|destruct Hv]; cbn [v_files v_0]; split; try (apply Sf; [auto|reflexivity]); reflexivity. }
  split; [vm_compute; reflexivity|]. eexists. eexists. eexists. split; [vm_compute; reflexivity|]. split; [vm_compute; reflexivity|]. vm_compute. reflexivity.
Qed.

(** The value of a cell depends on the other cells of the line: when a name of the divisor is missing, the calculation of the line
    stops there, and the cells of the columns to the right, correct as they may be, show 0. *)
Definition c_bad : list cell := [Some (clec_of (S2L "A"), Some (clec_of (S2L "Z"))); Some (clec_of (S2L "A"), None)].
Definition c_col : col := mkC NOP (mkP 2001 1 "Y") period0 (Some NOP) 1 0.
Theorem C81_independent_refuted :
  ~ (forall files cols cells cells' d ok vals ok' vals', length cells = length cells' -> nth_error cells d = nth_error cells' d ->
     COL_exec double files (fst (COL_resize (length cells) 1 cols)) cells = Ok (ok, vals) ->
     COL_exec double files (fst (COL_resize (length cells') 1 cols)) cells' = Ok (ok', vals') ->
     forall j, nth_error vals (d + j * length cells) = nth_error vals' (d + j * length cells)).
Proof.
  intros H.
  pose proof (H c_files [c_col] c_bad [None; Some (clec_of (S2L "A"), None)] 1%nat _ _ _ _ eq_refl eq_refl ltac:(vm_compute; reflexivity) ltac:(vm_compute; reflexivity) 0%nat) as K.
  vm_compute in K. discriminate.
Qed.
Print Assumptions C81_independent_refuted.
(** Nothing checks the number of a file: there are five of them, samples may name ten, and the second one may be 0. *)
Theorem C81_defined_refuted :
  ~ (forall e w t b cols files x, describes e w -> COL_cc e true t = Done (Some cols, b) -> Forall (fun c => COL_calc double files c x None <> UB) cols).
Proof.
  intros H. pose proof (H e_c w_c (S2L "2001[7]") _ _ c_files (clec_of (S2L "A")) d_c ltac:(vm_compute; reflexivity)) as F.
  inversion F as [|x y K _]; subst. apply K. vm_compute. reflexivity.
Qed.
Print Assumptions C81_defined_refuted.
Theorem C81_second_file_refuted :
  ~ (forall e w t b cols x, describes e w -> COL_cc e true t = Done (Some cols, b) ->
     Forall (fun c => 1 <= fnb0 c <= 2 -> 0 <= fnb1 c <= 2 -> COL_calc double c_files c x None <> UB) cols).
Proof.
  intros H. pose proof (H e_c w_c (S2L "2001[1-0]") _ _ (clec_of (S2L "A")) d_c ltac:(vm_compute; reflexivity)) as F.
  inversion F as [|x y K _]; subst. apply K; [cbn; lia|cbn; lia|]. vm_compute. reflexivity.
Qed.
Print Assumptions C81_second_file_refuted.

(** A column without values: when the first file of a column is not loaded (or has not the names of the formula), the cell shows not
    available, whatever the operations; the result is never an error. *)
Theorem C81_no_file : forall A files c x d, 1 <= fnb0 c <= 5 ->
  match nth (Z.to_nat (fnb0 c - 1)) files None with None => True | Some E => link_names E (x_names x) = false end ->
  COL_calc A files c x d = Ok (Some (na A)).
Proof.
  intros A files c x d H N. unfold COL_calc, file_turn, file_at. replace (fnb0 c =? 0) with false by lia.
  replace ((1 <=? fnb0 c) && (fnb0 c <=? 5)) with true by lia. cbn [rbind].
  destruct (nth _ files None) as [E|]; cbn [link_to rbind]; [|reflexivity]. rewrite N. reflexivity.
Qed.
Print Assumptions C81_no_file.
Example C81_no_file_ex : COL_calc double c_files (mkC GRT (mkP 2001 1 "Y") (mkP 2000 1 "Y") (Some DIFF) 3 1) (clec_of (S2L "A")) None = Ok (Some d_na)
  /\ COL_calc double c_files (mkC NOP (mkP 2001 1 "Y") (mkP 2000 1 "Y") (Some NOP) 1 0) (clec_of (S2L "Z")) None = Ok (Some d_na).
Proof. split; vm_compute; reflexivity. Qed.
