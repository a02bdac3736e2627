(** Lemmas on the import of files in the format DIF. *)
From Coq Require Import ZArith Ascii String List Bool Lia ZifyBool Floats.SpecFloat.
From Verif Require Import M_Base M_Report M_Time M_Names M_Lex M_Compile M_Bytes M_Exec M_Double M_Decimal M_Kdb M_Grep M_Ascii M_Import M_ImportDif
  L_Decimal L_Round L_Round2 S_Names S_Ascii L_Names L_Time L_Ascii L_Ascii3 L_Gsample2 L_Import S_Time S_ImportDif.
Import ListNotations.
Open Scope Z_scope.

(** * Integers below 2^53 are doubles *)
Lemma round_div_exact q d : 0 < d -> round_div (q * d) d = q.
Proof. intros D. unfold round_div. rewrite Z.div_mul, Z.mod_mul by lia. replace (2 * 0) with 0 by lia. destruct (Z.compare_spec 0 d); lia. Qed.
Lemma int_ofZ z : 0 < z < 2 ^ 53 -> d_int (d_ofZ z) = Some z.
Proof.
  intros [P U]. destruct (mag_exists z 1 P ltac:(lia)) as (M & MG & MB); [pose proof (p2 3000 ltac:(lia)); set (u := 2 ^ 3000) in *; clearbody u; nia|].
  rewrite (ofZ_near z M P MG MB). destruct MG as [A B].
  assert (M0 : 1 <= M).
  { destruct (Z.le_gt_cases 1 M) as [C|C]; [exact C|exfalso]. assert (q2 M <= q2 0) by (unfold q2; apply Z.pow_le_mono_r; lia). pose proof (q2_pos 0 ltac:(unfold K0; lia)). nia. }
  assert (Z1 : z < 2 ^ M).
  { replace M with (0 + M) in B by lia. rewrite q2_add in B by (unfold K0; lia). pose proof (q2_pos 0 ltac:(unfold K0; lia)). nia. }
  assert (Z2 : 2 ^ (M - 1) <= z).
  { replace (M - 1) with (0 + (M - 1)) in A by lia. rewrite q2_add in A by (unfold K0; lia). pose proof (q2_pos 0 ltac:(unfold K0; lia)). nia. }
  assert (M1 : M <= 53).
  { destruct (Z.le_gt_cases M 53) as [C|C]; [exact C|exfalso]. assert (2 ^ 53 <= 2 ^ (M - 1)) by (apply Z.pow_le_mono_r; lia). lia. }
  unfold near. replace (fx M) with (M - 53) by (unfold fx; lia).
  assert (Q : q2 0 = 2 ^ (53 - M) * q2 (M - 53)).
  { replace 0 with (M - 53 + (53 - M)) at 1 by lia. rewrite q2_add by (unfold K0; lia). ring. }
  pose proof (q2_pos (M - 53) ltac:(unfold K0; lia)) as Q0. rewrite Q, Z.mul_1_l, Z.mul_assoc, round_div_exact by exact Q0.
  pose proof (p2 (53 - M) ltac:(lia)) as P0. set (k := z * 2 ^ (53 - M)).
  assert (K : 0 < k < 2 ^ 53).
  { unfold k. split; [nia|]. replace 53 with (M + (53 - M)) at 2 by lia. rewrite Z.pow_add_r by lia. nia. }
  unfold finish. replace (k =? 2 ^ 53) with false by lia. unfold norm. destruct k as [|p|p] eqn:Ek; try lia.
  replace (M - 53 <=? 971) with true by lia. unfold d_int. rewrite <- Ek. unfold k.
  destruct (0 <=? M - 53) eqn:E.
  - assert (M = 53) as -> by lia. change (53 - 53) with 0. rewrite !Z.mul_1_r. reflexivity.
  - replace (- (M - 53)) with (53 - M) by lia. rewrite Z.div_mul by lia. reflexivity.
Qed.
Lemma trunc_ofZ z : 0 < z < 2 ^ 31 -> d_trunc (d_ofZ z) = Some z.
Proof. intros H. unfold d_trunc. rewrite int_ofZ by lia. replace ((-2147483648 <=? z) && (z <=? 2147483647)) with true by lia. reflexivity. Qed.

(** * One period *)
Lemma sample_of_one p s : make_sample p p = Ok s -> s_nb s = 1.
Proof.
  unfold make_sample, difference. destruct (negb _); cbn [rbind]; [discriminate|]. destruct (nb_per_year _) as [z| |]; cbn [rbind]; try discriminate.
  match goal with |- (if ?x <? 0 then _ else _) = _ -> _ => replace x with 0 by lia end. change (0 <? 0) with false. cbv iota. intros H. injection H as <-. reflexivity.
Qed.
Lemma header_one y s y' : read_header y = Done (Some s, y') -> s_nb s = 1 /\ s_start s = s_end s.
Proof.
  unfold read_header, ibind.
  repeat match goal with
  | |- match make_sample ?p ?p with _ => _ end = _ -> _ => destruct (make_sample p p) eqn:?
  | |- match ?x with _ => _ end = _ -> _ => destruct x
  | |- (if ?x then _ else _) = _ -> _ => destruct x
  | |- Done (if ?x then _ else _, _) = _ -> _ => destruct x
  | |- (let '(_, _) := ?x in _) = _ -> _ => destruct x
  | |- _ => progress cbn
  end; try discriminate; intros X; injection X; intros; subst; match goal with H : make_sample _ _ = Ok _ |- _ => split; [exact (sample_of_one _ _ H)|unfold make_sample in H; destruct (difference _ _); cbn in H; try discriminate; destruct (_ <? 0) in H; inversion H; cbn; reflexivity] end.
Qed.

(** * A file written by the export *)
Lemma number_cell z r t0 w0 : 0 <= z < 10 ^ 9 -> number_end r ->
  exists t w, read_real DIF_KEYS (mkY (to_string z ++ r) t0 w0 false) = Done (d_ofZ z, mkY r t w false).
Proof.
  intros Z0 N. destruct (dec_nt z ltac:(lia)) as (OK & T1 & T2). pose proof (to_string_short z 9 Z0 ltac:(lia)) as L.
  unfold read_real. set (f := S (length _)). 
  destruct (read_positive f DIF_KEYS [] (mkNT (to_string z) [] None) r t0 w0 ltac:(constructor) OK ltac:(rewrite T2; lia) N) as (t & w & E).
  rewrite T1 in E. cbn [app] in E. cbn [rest]. exists t, w. subst f. rewrite E. rewrite T2 in *. f_equal. f_equal.
  pose proof (long_value (mkNT (to_string z) [] None) OK) as V. rewrite T2 in V.
  assert (I : is_long (mkNT (to_string z) [] None) = true) by (unfold is_long; rewrite T2; cbn [ip fp ep]; lia).
  destruct (V I) as (_ & ->). f_equal. destruct (to_string_spec z ltac:(lia)) as (_ & H & _). exact H.
Qed.

Lemma number_end_lf r : number_end (LF :: r).
Proof. intros c u E. injection E as <- <-. repeat split; vm_compute; discriminate. Qed.
(** The dimensions: [0,z], an empty text. *)
Lemma dim_cell z r t0 w0 : 0 < z < 10 ^ 9 ->
  exists y, read_cell false (mkY (LF :: S2L "0," ++ to_string z ++ LF :: dquote [] ++ r) t0 w0 false) = Done (C_VALUE (d_ofZ z), y) /\ y = mkY r Y_STRING [] false.
Proof.
  intros Hz. eexists. split; [|reflexivity].
  destruct (number_cell z (LF :: dquote [] ++ r) Y_SPECIAL (S2L ",") ltac:(lia) (number_end_lf _)) as (t & w & E).
  transitivity (try '(x, y3) <- read_real DIF_KEYS (mkY (to_string z ++ LF :: dquote [] ++ r) Y_SPECIAL (S2L ",") false);
                try '(_, y4) <- lex DIF_KEYS y3; Done (C_VALUE x, y4)); [reflexivity|].
  rewrite E. reflexivity.
Qed.
(** A cell that holds a text. *)
Lemma unquoted_plain t : printable t -> unquoted t -> ~ In (chr 94) t -> no_control t.
Proof. intros _ _ N a c b -> _. apply N, in_or_app. right. left. reflexivity. Qed.
Lemma str_cell t r t0 w0 : unquoted t -> ~ In (chr 94) t -> Z.of_nat (length t) < 40000 ->
  read_cell true (mkY (LF :: S2L "1,0" ++ LF :: dquote t ++ r) t0 w0 false) = Done (C_STR t, mkY r Y_STRING t false).
Proof.
  intros U N L.
  transitivity (try '(s, y4) <- read_str (mkY (LF :: dquote t ++ r) Y_LONG (S2L "0") false);
                Done (match s with Some u => C_STR u | None => C_FAIL end, y4)); [reflexivity|].
  assert (NC : no_control t) by (intros a c b -> _; apply N, in_or_app; right; left; reflexivity).
  pose proof (lex_string DIF_KEYS [LF] t r Y_LONG (S2L "0") ltac:(constructor; [reflexivity|constructor]) NC L) as E.
  unfold quoted in E. rewrite (escaped_unquoted t U) in E. unfold read_str, dquote. change (LF :: (chr 34 :: t ++ [chr 34]) ++ r) with ([LF] ++ (QUOTE :: t ++ [QUOTE]) ++ r).
  rewrite E. reflexivity.
Qed.
Lemma value_cell_read t r t0 w0 : short_number t ->
  exists y, read_cell false (mkY (LF :: S2L "0," ++ text_of (chr 101) t ++ LF :: S2L "V" ++ LF :: r) t0 w0 false) = Done (C_VALUE (value_of_text t), y) /\ y = mkY (LF :: r) Y_WORD (S2L "V") false.
Proof.
  intros [OK L]. eexists. split; [|reflexivity].
  assert (L' : (length (text_of (chr 69) t) <= 60)%nat) by (unfold text_of in *; destruct (ep t) as [[g u]|]; cbn [exp_part] in *; rewrite !app_length in *; cbn [length] in *; lia).
  destruct (read_positive (S (length (text_of (chr 101) t ++ LF :: S2L "V" ++ LF :: r))) DIF_KEYS [] t (LF :: S2L "V" ++ LF :: r) Y_SPECIAL (S2L ",") ltac:(constructor) OK L' (number_end_lf _)) as (y & w & E).
  transitivity (try '(x, y3) <- real_loop (S (S (length (text_of (chr 101) t ++ LF :: S2L "V" ++ LF :: r)))) DIF_KEYS false (mkY ([] ++ text_of (chr 101) t ++ LF :: S2L "V" ++ LF :: r) Y_SPECIAL (S2L ",") false);
                try '(_, y4) <- lex DIF_KEYS y3; Done (C_VALUE x, y4)); [reflexivity|].
  rewrite E, (scan_spec (chr 69) t ltac:(right; reflexivity) OK). reflexivity.
Qed.

Lemma lines_cons t l : lines (t :: l) = t ++ LF :: lines l.
Proof. unfold lines. cbn [flat_map]. rewrite <- app_assoc. reflexivity. Qed.
Definition top (v u : Z) (r : str) : str :=
  S2L "TABLE" ++ LF :: S2L "0,1" ++ LF :: dquote [] ++ LF :: S2L "VECTORS" ++ LF :: S2L "0," ++ to_string v ++ LF :: dquote [] ++
  LF :: S2L "TUPLES" ++ LF :: S2L "0," ++ to_string u ++ LF :: dquote [] ++
  LF :: S2L "DATA" ++ LF :: S2L "0,0" ++ LF :: dquote [] ++ LF :: S2L "-1,0" ++ LF :: S2L "BOT" ++ LF :: S2L "1,0" ++ LF :: dquote (S2L "CODE") ++ LF :: r.
Definition after_names (ny : Z) (y6 : yy) : io (option sample * yy) :=
  try '(p, y7) <- dif_periods ny y6;
  match p with
  | None => Done (None, y7)
  | Some None => Done (None, y7)
  | Some (Some p) =>
    match make_sample p p with
    | Ok s =>
      if negb (ny =? s_nb s) then Done (None, y7)
      else try '(b, y8) <- skip_to "BOT" y7; Done (if b then Some s else None, y8)
    | Throw => Done (None, y7)
    | UB => Undefined
    end
  end.
Lemma header_top v u r : 0 < v < 10 ^ 9 -> 0 < u < 10 ^ 9 ->
  read_header (mkY (top v u r) Y_NONE [] false) = after_names (v - 1) (mkY (LF :: r) Y_STRING (S2L "CODE") false).
Proof.
  intros V U. unfold top.
  set (r3 := LF :: S2L "DATA" ++ LF :: S2L "0,0" ++ LF :: dquote [] ++ LF :: S2L "-1,0" ++ LF :: S2L "BOT" ++ LF :: S2L "1,0" ++ LF :: dquote (S2L "CODE") ++ LF :: r).
  set (r2 := LF :: S2L "TUPLES" ++ LF :: S2L "0," ++ to_string u ++ LF :: dquote [] ++ r3).
  destruct (dim_cell v r2 Y_WORD (S2L "VECTORS") V) as (y2 & E2 & Y2).
  transitivity (try '(c, y2) <- read_cell false (mkY (LF :: S2L "0," ++ to_string v ++ LF :: dquote [] ++ r2) Y_WORD (S2L "VECTORS") false);
      try ny <- dim_of c;
      match ny with
      | None => Done (None, y2)
      | Some ny =>
        try '(b, y3) <- skip_to "TUPLES" y2;
        if negb b then Done (None, y3)
        else
          try '(c, y4) <- read_cell false y3;
          try nl <- dim_of c;
          match nl with
          | None => Done (None, y4)
          | Some _ =>
            try '(b, y5) <- skip_to "BOT" y4;
            if negb b then Done (None, y5)
            else
              try '(c, y6) <- read_cell true y5;
              match c with
              | C_STR _ => after_names ny y6
              | _ => Undefined
              end
          end
      end); [reflexivity|].
  rewrite E2, Y2. cbn [ibind dim_of]. rewrite trunc_ofZ by lia. cbn [ibind].
  destruct (dim_cell u r3 Y_WORD (S2L "TUPLES") U) as (y4 & E4 & Y4).
  transitivity (try '(c, y4) <- read_cell false (mkY (LF :: S2L "0," ++ to_string u ++ LF :: dquote [] ++ r3) Y_WORD (S2L "TUPLES") false);
          try nl <- dim_of c;
          match nl with
          | None => Done (None, y4)
          | Some _ =>
            try '(b, y5) <- skip_to "BOT" y4;
            if negb b then Done (None, y5)
            else
              try '(c, y6) <- read_cell true y5;
              match c with
              | C_STR _ => after_names (v - 1) y6
              | _ => Undefined
              end
          end); [reflexivity|].
  rewrite E4, Y4. cbn [ibind dim_of]. rewrite trunc_ofZ by lia. cbn [ibind].
  transitivity (try '(c, y6) <- read_cell true (mkY (LF :: S2L "1,0" ++ LF :: dquote (S2L "CODE") ++ LF :: r) Y_WORD (S2L "BOT") false);
              match c with
              | C_STR _ => after_names (v - 1) y6
              | _ => Undefined
              end); [reflexivity|].
  rewrite str_cell; [reflexivity| | |vm_compute; reflexivity]; [split|]; cbn; intros H; repeat (destruct H as [H|H]; [discriminate H|]); exact H.
Qed.
(** The rows, from the BOT of the first one. *)
Definition row (x : str * number_text) (r : str) : str :=
  LF :: S2L "1,0" ++ LF :: dquote (fst x) ++ LF :: S2L "0," ++ text_of (chr 101) (snd x) ++ LF :: S2L "V" ++ LF :: S2L "-1,0" ++ LF :: r.
Fixpoint rows_text (x : str * number_text) (l : list (str * number_text)) : str :=
  row x (match l with [] => S2L "EOD" ++ [LF] | y :: l' => S2L "BOT" ++ rows_text y l' end).
Definition good_row (x : str * number_text) : Prop := accepted VARIABLES (fst x) /\ short_number (snd x).
Lemma accepted_quotes n : accepted VARIABLES n -> unquoted n /\ ~ In (chr 94) n /\ (length n <= 20)%nat.
Proof.
  intros (c & u & -> & L & Hc & Hu). assert (F : forall x, In x (c :: u) -> code x <> 34 /\ code x <> 92 /\ code x <> 94).
  { intros x [<-|I]; [|rewrite Forall_forall in Hu; specialize (Hu x I); revert Hu; cbn; lia]. revert Hc. cbn. lia. }
  split; [split|split; [|exact L]]; intros I; destruct (F _ I) as (F1 & F2 & F3); vm_compute in F1, F2, F3; congruence.
Qed.
Definition values (l : list (str * number_text)) : smap (list dbl) := map (fun x => (fst x, [value_of_text (snd x)])) l.
Lemma rows_read rs : forall l x o news fuel db w0, (length l + 1 < fuel)%nat -> good_row x -> Forall good_row l ->
  given rs o (fst x) -> Forall2 (given rs) news (map fst l) ->
  import_dif_loop fuel 1 rs db (mkY (rows_text x l) Y_WORD w0 false) = Done (puts_some (combine (o :: news) (map snd (values (x :: l)))) db).
Proof.
  induction l as [|x' l IH]; intros x o news fuel db w0 F [A SN] G [Ch Ac] GN; (destruct fuel as [|fuel]; [lia|]); cbn [import_dif_loop rows_text]; unfold row, read_variable.
  all: destruct (accepted_quotes _ A) as (U & C & L); rewrite str_cell by (exact U || exact C || lia); cbn [ibind dif_values].
  all: match goal with |- context [read_cell false (mkY (LF :: S2L "0," ++ text_of (chr 101) _ ++ LF :: S2L "V" ++ LF :: ?r) ?t0 ?w0 false)] =>
         destruct (value_cell_read (snd x) r t0 w0 SN) as (y & E & Y); rewrite E, Y end.
  all: cbn [ibind option_map].
  - transitivity (try db' <- of_res (import_one rs db (firstn 79 (fst x)) [value_of_text (snd x)]);
      import_dif_loop fuel 1 rs db' (mkY [LF] Y_WORD (S2L "EOD") false)); [reflexivity|].
    rewrite firstn_all2 by lia. unfold import_one. rewrite Ch. cbn [rbind]. inversion GN; subst.
    destruct fuel as [|fuel]; [lia|]. destruct o as [m|]; [unfold set_var; rewrite set_accepted by exact Ac|]; reflexivity.
  - inversion G as [|? ? Gx Gl]; subst. cbn [map] in GN. inversion GN as [|o' ? news' ? Go Gn]; subst.
    transitivity (try db' <- of_res (import_one rs db (firstn 79 (fst x)) [value_of_text (snd x)]);
      import_dif_loop fuel 1 rs db' (mkY (rows_text x' l) Y_WORD (S2L "BOT") false)); [destruct l; reflexivity|].
    rewrite firstn_all2 by lia. unfold import_one. rewrite Ch. cbn [rbind].
    destruct o as [m|]; [unfold set_var; rewrite set_accepted by exact Ac|]; cbn [of_res ibind];
      (rewrite (IH x' o' news'); [reflexivity|cbn [length] in F; lia|exact Gx|exact Gl|exact Go|exact Gn]).
Qed.
