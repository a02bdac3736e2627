(** Properties C19 to C22 and C48: variables, their samples, modes and initialisation. *)
From Coq Require Import ZArith Ascii String List Bool Lia QArith Qcanon.
From Verif Require Import M_Base M_Time M_Names M_Lex M_Compile M_Bytes M_Exec M_Double M_Exact M_Kdb M_Vars S_Kdb S_Vars
  L_Vars4 L_Vars5 L_Vars6.
Import ListNotations.
Open Scope Z_scope.

(** C19: after any history of careful calls, every variable of every database in use has one value per
    period of the sample of that database.  Careful (S_Vars.v): samples of at most 32767 periods, no
    [clear] of a subset, no overwriting rename while there are subsets. *)
Theorem C19_one_value_per_period_partial : forall A tiny ops d name v,
  careful_run A tiny (no_vars A) ops ->
  let w := vrun A tiny ops (no_vars A) in
  live (base A w) d = true -> var_of A w d name = Some v -> Z.of_nat (length v) = nb_periods A w d.
Proof. intros A tiny ops d name v H w L V. exact (sized A w d name v (reach A tiny ops H) L V). Qed.
Print Assumptions C19_one_value_per_period_partial.

Definition yr (y : Z) : period := mkP y 1 "Y"%char.
Definition smp3 : sample := M_Time.mkS (yr 2000) (yr 2002) 3.
Definition smp4 : sample := M_Time.mkS (yr 2001) (yr 2004) 4.
Definition tiny_d : dbl := d_div (d_ofZ 1) (d_ofZ (10 ^ 36)).
Definition vals (l : list Z) : list dbl := map d_ofZ l.
Notation vrun_d := (vrun double tiny_d).
Definition h19 : list (vop double) :=
  [VNew double; VSample double 0 smp3; VSet double 0 (S2L "a") (vals [1; 2; 3]); VSet double 0 (S2L "B") (vals [4; 5; 6]);
   VSubset double 0 (Matching (fun n => str_eqb n (S2L "A"))) false; VSample double 0 smp4; VNew double; VSample double 2 smp3;
   VSet double 2 (S2L "C") (vals [7; 8; 9]); KvMerge double 0 2 true; VSetAt double 1 (S2L "A") 0 DIFF (d_ofZ 5);
   VExtrapolate double 0 TM1 smp4 All].
Lemma real3 : real_sample smp3. Proof. split; [cbn; lia|reflexivity]. Qed.
Lemma real4 : real_sample smp4. Proof. split; [cbn; lia|reflexivity]. Qed.
Example C19_ex : careful_run double tiny_d (no_vars double) h19 /\
  let w := vrun_d h19 (no_vars double) in
  live (base double w) 1 = true /\ var_of double w 1 (S2L "a") = Some (vals [2; 3; 3; 3]) /\ nb_periods double w 1 = 4 /\
  var_of double w 0 (S2L "C") = Some (vals [8; 9; 9; 9]).
Proof.
  split; [|vm_compute; repeat split; reflexivity].
  unfold h19. cbn [careful_run careful]. repeat (split; [first [exact real3|exact real4|exact I]|]). exact I.
Qed.
(** Not true in general: (1) a subset that has been cleared has no sample but still writes into its
    parent; (2) clearing a subset takes the sample away from the other subsets; (3) an overwriting
    rename leaves the old object in the subsets, where the next change of sample does not reach it. *)
Theorem C19_refuted :
  (let w := vrun_d [VNew double; VSample double 0 smp3; VSet double 0 (S2L "A") (vals [1; 2; 3]); VSubset double 0 All false; VClear double 1;
                    VSet double 1 (S2L "B") []] (no_vars double) in
   live (base double w) 0 = true /\ var_of double w 0 (S2L "B") = Some [] /\ nb_periods double w 0 = 3) /\
  (let w := vrun_d [VNew double; VSample double 0 smp3; VSet double 0 (S2L "A") (vals [1; 2; 3]); VSubset double 0 All false; VSubset double 0 All false;
                    VClear double 1] (no_vars double) in
   live (base double w) 2 = true /\ var_of double w 2 (S2L "A") = Some (vals [1; 2; 3]) /\ nb_periods double w 2 = 0) /\
  (let w := vrun_d [VNew double; VSample double 0 smp3; VSet double 0 (S2L "A") (vals [1; 2; 3]); VSet double 0 (S2L "B") (vals [4; 5; 6]);
                    VSubset double 0 (Matching (fun n => str_eqb n (S2L "B"))) false; VRename double 0 (S2L "A") (S2L "B") true;
                    VSample double 0 smp4] (no_vars double) in
   live (base double w) 1 = true /\ var_of double w 1 (S2L "B") = Some (vals [4; 5; 6]) /\ nb_periods double w 1 = 4).
Proof. vm_compute. repeat split; reflexivity. Qed.
Print Assumptions C19_refuted.

(** C20: an accepted change of sample gives the whole family of the database (a workspace and its
    subsets) the new sample; each variable keeps its value on every period it had and has NA on the
    other periods of the new sample; other databases are unchanged. *)
Theorem C20_sample_change_keeps_values : forall A tiny ops d s w',
  careful_run A tiny (no_vars A) ops -> real_sample s ->
  let w := vrun A tiny ops (no_vars A) in
  live (base A w) d = true -> vstep A tiny w (VSample A d s) = (w', VRet true) ->
  (forall e, live (base A w) e = true -> same_data A w e d ->
     smpl A w' e = Some s /\
     forall name q i, M_Time.position s q = Ok i ->
       value_on A w' e name q = match var_of A w e name with
                                | None => None
                                | Some _ => match value_on A w e name q with Some x => Some x | None => Some (na A) end
                                end) /\
  (forall e, live (base A w) e = true -> ~ same_data A w e d ->
     smpl A w' e = smpl A w e /\ forall name, var_of A w' e name = var_of A w e name).
Proof.
  intros A tiny ops d s w' H Rs w L E. cbn [vstep] in E. rewrite L in E.
  exact (set_sample_ok A w w' d s (reach A tiny ops H) L Rs E).
Qed.
Print Assumptions C20_sample_change_keeps_values.
(** A refused change modifies nothing; it is refused exactly when the sample would really change and
    the database is a subset or has a sample without common period (or of another periodicity). *)
Theorem C20_refusal_changes_nothing : forall A tiny ops d s,
  careful_run A tiny (no_vars A) ops -> real_sample s ->
  let w := vrun A tiny ops (no_vars A) in
  let r := vstep A tiny w (VSample A d s) in
  live (base A w) d = true ->
  (snd r <> VRet true -> fst r = w) /\
  (snd r <> VRet true <->
     smpl A w d <> Some s /\
     (kind (get_db (base A w) d) = DB_SUBSET \/
      exists o, smpl A w d = Some o /\ forall q i j, ~ (M_Time.position o q = Ok i /\ M_Time.position s q = Ok j))).
Proof.
  intros A tiny ops d s H Rs w r L. unfold r. cbn [vstep]. rewrite L.
  exact (set_sample_refused A w d s (reach A tiny ops H) L Rs).
Qed.
Print Assumptions C20_refusal_changes_nothing.
(** Samples built from two periods are as required up to 32767 periods. *)
Theorem C20_samples : forall a b s n, make_sample a b = Ok s -> difference b a = Ok n -> n < 32767 -> real_sample s.
Proof. exact (fun a b s n => L_Vars2.make_real a b s n). Qed.
Print Assumptions C20_samples.
Example C20_ex :
  let w := vrun_d [VNew double; VSample double 0 smp3; VSet double 0 (S2L "A") (vals [1; 2; 3]); VSubset double 0 All false] (no_vars double) in
  let r := vstep double tiny_d w (VSample double 0 smp4) in
  snd r = VRet true /\ smpl double (fst r) 1 = Some smp4 /\ same_data double w 1 0 /\ value_on double (fst r) 1 (S2L "A") (yr 2002) = Some (d_ofZ 3) /\
  value_on double (fst r) 1 (S2L "A") (yr 2003) = Some d_na /\
  snd (vstep double tiny_d w (VSample double 1 smp4)) = VExc /\
  snd (vstep double tiny_d w (VSample double 0 (M_Time.mkS (yr 2010) (yr 2012) 3))) = VExc.
Proof. vm_compute. repeat split; reflexivity. Qed.
(** Not true beyond 32767 periods (here 100 years of days): the number of periods wraps to a negative
    number, the exception comes after the sample has been replaced and a variable emptied. *)
Definition day (y n : Z) : period := mkP y n "D"%char.
Theorem C20_refuted : exists s,
  make_sample (day 1900 1) (day 2000 3) = Ok s /\
  let w := vrun_d [VNew double; VSample double 0 (M_Time.mkS (day 2000 1) (day 2000 3) 3); VSet double 0 (S2L "A") (vals [1; 2; 3])] (no_vars double) in
  let r := vstep double tiny_d w (VSample double 0 s) in
  snd r = VExc /\ value_on double w 0 (S2L "A") (day 2000 2) = Some (d_ofZ 2) /\
  smpl double (fst r) 0 <> smpl double w 0 /\ var_of double (fst r) 0 (S2L "A") = Some [].
Proof.
  eexists. split; [vm_compute; reflexivity|]. vm_compute. repeat split; discriminate.
Qed.
Print Assumptions C20_refuted.

(** C21: in exact arithmetic, a value written in a mode is read back in that mode, when the mode has a
    reference value (for growth rates, a non-zero one) and the value and resulting level are numbers. *)
Theorem C21_modes_are_inverse : forall ops d name v t mode b x s pernb,
  careful_run exactly q_tiny (no_vars exactly) ops ->
  let w := vrun exactly q_tiny ops (no_vars exactly) in
  live (base exactly w) d = true -> var_of exactly w d name = Some v -> smpl exactly w d = Some s ->
  nb_per_year (per (s_start s)) = Ok pernb -> 0 <= t < s_nb s ->
  reference exactly q_tiny pernb mode v t = Some b -> q_num x = true -> q_num (level_for exactly mode b x) = true ->
  exists w', vstep exactly q_tiny w (VSetAt exactly d name t mode x) = (w', VRet true) /\
    get_var exactly q_tiny w' d name t mode = Ok x.
Proof.
  intros ops d name v t mode b x s pernb H w L V Es Np Ht Hr Hx Hl. cbn [vstep]. rewrite L.
  exact (mode_round_trip w d name v t mode b x s pernb (reach exactly q_tiny ops H) L V Es Np Ht Hr Hx Hl).
Qed.
Print Assumptions C21_modes_are_inverse.
(** In any arithmetic, the assignment is done and no other value of any database changes. *)
Theorem C21_other_values_unchanged : forall A tiny ops d name v t mode x s,
  careful_run A tiny (no_vars A) ops ->
  let w := vrun A tiny ops (no_vars A) in
  live (base A w) d = true -> var_of A w d name = Some v -> smpl A w d = Some s -> 0 <= t < s_nb s ->
  exists w', vstep A tiny w (VSetAt A d name t mode x) = (w', VRet true) /\
    forall e n u, live (base A w) e = true -> var_of A w e n = Some u ->
      smpl A w' e = smpl A w e /\
      exists u', var_of A w' e n = Some u' /\ length u' = length u /\
        forall i, (i <> t \/ ~ same_data A w e d \/ key_of VARIABLES n <> key_of VARIABLES name) -> at_ A u' i = at_ A u i.
Proof.
  intros A tiny ops d name v t mode x s H w L V Es Ht. cbn [vstep]. rewrite L. pose proof (reach A tiny ops H) as I. fold w in I.
  assert (R : real_sample s) by (apply (L_Vars3.i_real _ _ _ I d); exact Es).
  destruct (L_Vars2.real_idx s R) as (nb & Np & _).
  pose proof (sized A w d name v I L V) as Hl. unfold nb_periods in Hl. rewrite Es in Hl. cbn [nb_of] in Hl.
  destruct (L_Vars.kv_set_bounds A nb v t mode x) as (v' & Ek). { lia. } { apply L_Vars2.nb_per_year_pos in Np. lia. }
  destruct (set_var_spec A w d name v t mode x s nb v' I L V Es Np Ht Ek) as (w' & E & _ & _ & _ & Sm & X).
  exists w'. split; [exact E|]. intros e n u La Vu. split; [apply Sm|exact (X e n u La Vu)].
Qed.
Print Assumptions C21_other_values_unchanged.
Definition h21 : list (vop exactly) :=
  [VNew exactly; VSample exactly 0 smp3; VSet exactly 0 (S2L "A") (map q_ofZ [10; 20; 30])].
Example C21_ex : careful_run exactly q_tiny (no_vars exactly) h21 /\
  let w := vrun exactly q_tiny h21 (no_vars exactly) in
  live (base exactly w) 0 = true /\ smpl exactly w 0 = Some smp3 /\ nb_per_year (per (s_start smp3)) = Ok 1 /\
  reference exactly q_tiny 1 GROWTH_RATE (map q_ofZ [10; 20; 30]) 2 = Some (q_ofZ 20) /\
  q_num (level_for exactly GROWTH_RATE (q_ofZ 20) (q_ofZ 5)) = true /\
  option_map (map this) (var_of exactly (fst (vstep exactly q_tiny w (VSetAt exactly 0 (S2L "a") 2 GROWTH_RATE (q_ofZ 5)))) 0 (S2L "A")) =
  Some (map this (map q_ofZ [10; 20; 21])).
Proof.
  split. { unfold h21. cbn [careful_run careful]. split; [exact I|]. split; [exact real3|]. split; exact I. }
  vm_compute. repeat split; reflexivity.
Qed.

(** C22: a method of initialisation touches the given position only and gives the announced value. *)
Theorem C22_init_value : forall A tiny (v : list (F A)) t m, 0 <= t < Z.of_nat (length v) ->
  exists v', kv_init A tiny v t m = Some v' /\ length v' = length v /\
    (forall u, u <> t -> at_ A v' u = at_ A v u) /\
    at_ A v' t = announced A tiny m (at_ A v t) (at_ A v (t - 1)) (at_ A v (t - 2)).
Proof.
  intros A tiny v t m H. destruct (kv_init_value A tiny v t m H) as (v' & E & L & O & N). exists v'. split; auto. split; auto.
  split; [|exact (at_read A v' t _ N)]. intros u Nu. specialize (O u Nu). unfold at_, M_Vars.read in *. destruct (u <? 0); auto.
  destruct (nth_error v (Z.to_nat u)) eqn:Ev.
  - erewrite nth_error_nth by eauto. now erewrite nth_error_nth by eauto.
  - apply nth_error_None in Ev. rewrite !nth_overflow; auto; lia.
Qed.
Print Assumptions C22_init_value.
(** Extrapolating a workspace over a range applies the method to the selected variables period after
    period, on that range only; nothing else changes. *)
Theorem C22_extrapolate : forall A tiny ops d m s o sel names bt w',
  careful_run A tiny (no_vars A) ops -> real_sample s ->
  let w := vrun A tiny ops (no_vars A) in
  live (base A w) d = true -> smpl A w d = Some o -> filter_names (get_db (base A w) d) sel = Ok names ->
  difference (s_start s) (s_start o) = Ok bt ->
  vstep A tiny w (VExtrapolate A d m s sel) = (w', VRet true) ->
  (forall e, smpl A w' e = smpl A w e) /\
  forall e name v, live (base A w) e = true -> var_of A w e name = Some v ->
    exists v', var_of A w' e name = Some v' /\
      ((same_data A w e d /\ In (key_of VARIABLES name) names ->
          length v' = length v /\ forall u, 0 <= u < Z.of_nat (length v) ->
            at_ A v' u = if (bt <=? u) && (u <? bt + s_nb s)
                         then announced A tiny m (at_ A v u) (at_ A v' (u - 1)) (at_ A v' (u - 2)) else at_ A v u) /\
       (~ (same_data A w e d /\ In (key_of VARIABLES name) names) -> v' = v)).
Proof.
  intros A tiny ops d m s o sel names bt w' H Rs w L Es Fn D E. cbn [vstep] in E. rewrite L in E.
  exact (extrapolate_spec A tiny w w' d m s o sel names bt (reach A tiny ops H) L Rs Es Fn D E).
Qed.
Print Assumptions C22_extrapolate.
Example C22_ex :
  let w := vrun_d [VNew double; VSample double 0 smp4; VSet double 0 (S2L "A") [d_ofZ 1; d_ofZ 4; d_na; d_ofZ 0]; VSet double 0 (S2L "B") (vals [1; 0; 0; 0])]
             (no_vars double) in
  let r := vstep double tiny_d w (VExtrapolate double 0 EXTRA (M_Time.mkS (yr 2003) (yr 2004) 2) (Matching (fun n => str_eqb n (S2L "A")))) in
  snd r = VRet true /\ var_of double (fst r) 0 (S2L "A") = Some (vals [1; 4; 7; 10]) /\ var_of double (fst r) 0 (S2L "B") = Some (vals [1; 0; 0; 0]).
Proof. vm_compute. repeat split; reflexivity. Qed.

(** C48: no careful call reads or writes outside a vector, nor uses a missing sample, apart from
    [KV_add] and [KV_extrapolate] on a workspace without sample and [KV_merge] from one. *)
Theorem C48_no_access_outside : forall A tiny ops o,
  careful_run A tiny (no_vars A) ops ->
  let w := vrun A tiny ops (no_vars A) in
  careful A w o -> snd (vstep A tiny w o) = VUndef -> sampleless A w o.
Proof. intros A tiny ops o H w C E. exact (proj2 (vinv_step A tiny w o (reach A tiny ops H) C) E). Qed.
Print Assumptions C48_no_access_outside.
Theorem C48_reading_is_safe : forall A tiny ops d name t mode,
  careful_run A tiny (no_vars A) ops ->
  let w := vrun A tiny ops (no_vars A) in
  live (base A w) d = true -> get_var A tiny w d name t mode <> UB.
Proof. intros A tiny ops d name t mode H w L. exact (get_var_def A tiny w d name t mode (reach A tiny ops H) L). Qed.
Print Assumptions C48_reading_is_safe.
Example C48_ex : careful_run double tiny_d (no_vars double) h19 /\
  snd (vstep double tiny_d (vrun_d h19 (no_vars double)) (VSetAt double 1 (S2L "a") 3 Y0Y_GROWTH_RATE (d_ofZ 2))) = VRet true /\
  get_var double tiny_d (vrun_d h19 (no_vars double)) 1 (S2L "a") 1 DIFF = Ok (d_ofZ 1).
Proof. split; [apply C19_ex|]. vm_compute. split; reflexivity. Qed.
(** The exceptions are real: the missing sample is used. After an overwriting rename and a change of
    sample, a value is read outside its vector. *)
Theorem C48_refuted :
  snd (vstep double tiny_d (vrun_d [VNew double] (no_vars double)) (KvAdd double 0 (S2L "A"))) = VUndef /\
  snd (vstep double tiny_d (vrun_d [VNew double; VSet double 0 (S2L "A") []] (no_vars double)) (VExtrapolate double 0 TM1 smp3 All)) = VUndef /\
  snd (vstep double tiny_d (vrun_d [VNew double; VSample double 0 smp3; VNew double] (no_vars double)) (KvMerge double 0 1 true)) = VUndef /\
  (let w := vrun_d [VNew double; VSample double 0 smp3; VSet double 0 (S2L "A") (vals [1; 2; 3]); VSet double 0 (S2L "B") (vals [4; 5; 6]);
                    VSubset double 0 (Matching (fun n => str_eqb n (S2L "B"))) false; VRename double 0 (S2L "A") (S2L "B") true;
                    VSample double 0 smp4] (no_vars double) in
   get_var double tiny_d w 1 (S2L "B") 3 LEVEL = UB).
Proof. vm_compute. repeat split; reflexivity. Qed.
Print Assumptions C48_refuted.
