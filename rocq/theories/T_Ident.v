(** Properties C53 to C58: the execution of identities. *)
From Coq Require Import ZArith Ascii String List Bool Lia Permutation.
From Verif Require Import M_Base M_Time M_Names M_Lex M_Compile M_Bytes M_Exec M_Double M_Vars M_Ident S_Vars S_Ident
  L_Ident L_Ident2 L_Ident3 L_Ident4.
Import ListNotations.
Open Scope Z_scope.

(** * The examples: a workspace over 2000Y1:2003Y1 *)
Definition nr : str -> list Z := fun _ => repeat 0 8.
Definition y (n : Z) : period := {| year := n; per := "Y"%char; M_Time.step := 1 |}.
Definition years (a b : Z) : sample := mkS (y a) (y b) (b - a + 1).
Definition series (l : list Z) : Z -> F double := fun i => d_val (nth_error l (Z.to_nat i)).
Definition idts (l : list (string * string)) : idents := map (fun p => (S2L (fst p), S2L (snd p))) l.
Definition ws : db double := mkDb (Some (years 2000 2003)) [(S2L "A", series [1; 2; 3; 4]); (S2L "X", series [10; 20; 30; 40])].
Definition run (l : list (string * string)) (files : list (source double)) (xs : sample) (n : string) : res (option (list (F double))) :=
  do r <- execute_idents double nr (idts l) ws files [] [] xs;
  Ok (match r with
      | Some out => match out (S2L n) with Some f => Some (map f (seqZ 0 4)) | None => None end
      | None => None
      end).
Definition values (l : list (option Z)) : res (option (list (F double))) := Ok (Some (map d_val l)).
Lemma years_real a b : 0 <= b - a < 32767 -> real_sample (years a b).
Proof.
  intros H. split; [cbn [years s_nb]; lia|]. rewrite (L_Vars2.difference_idx _ _ 1) by reflexivity. f_equal.
  unfold L_Vars2.idx, years, y. cbn [s_end s_start s_nb year M_Time.step]. lia.
Qed.
Ltac named := split;
  [cbn; repeat (constructor; [cbn; intuition discriminate|]); constructor
  |cbn; intros ? ? Hin; repeat (destruct Hin as [Hin|Hin]; [injection Hin as <- _; reflexivity|]); destruct Hin].

(** * C53: the order of execution *)
Theorem C53_order : forall all order, well_named all -> reorder all = Some order ->
  Permutation order (seq 0 (length all)) /\
  forall a i b x j z, order = a ++ i :: b -> nth_error all i = Some x -> nth_error all j = Some z -> depends x z -> In j a.
Proof.
  intros all order W R. split.
  - destruct (reorder_placed all order R) as (m & _ & P). exact P.
  - intros. eapply reorder_order; eauto.
Qed.
Print Assumptions C53_order.
Definition ex_order := [("A", "B + C"); ("B", "C * 2"); ("C", "X"); ("D", "X[-1]")]%string.
Example C53_order_ex : well_named (idts ex_order) /\ reorder (idts ex_order) = Some [2; 3; 1; 0]%nat.
Proof. split; [named|reflexivity]. Qed.

(** * C54: circular definitions *)
Theorem C54_circular : forall A rb all ws vfiles scls sfiles xs out, well_named all -> circular all ->
  execute_idents A rb all ws vfiles scls sfiles xs <> Ok (Some out).
Proof.
  intros A rb all w vf sc sf xs out W C H. unfold execute_idents in H.
  destruct (ki_exec A rb all w vf sc sf (Some xs)) as [[[ks o]|]| |] eqn:K; try discriminate. cbn [rbind] in H.
  destruct (d_smp w) as [vs|] eqn:V; [|discriminate].
  destruct (ki_exec_ok A rb all w vf sc sf xs vs ks o V K) as (d & e & order & vars & E & _ & _ & _ & _ & R & _).
  rewrite (reorder_circular all W C) in R. discriminate.
Qed.
Print Assumptions C54_circular.
Definition ex_circular := [("B", "C + 1"); ("C", "D[-1]"); ("D", "B"); ("E", "X")]%string.
Example C54_circular_ex : well_named (idts ex_circular) /\ circular (idts ex_circular) /\
  run ex_circular [] (years 2001 2002) "B" = Ok None.
Proof.
  split; [named|]. split; [|reflexivity].
  exists (fun x => In x (idts [("B", "C + 1"); ("C", "D[-1]"); ("D", "B")]%string)). split; [exists (S2L "B", S2L "C + 1"); left; reflexivity|].
  split; [cbn; tauto|]. intros x [<-|[<-|[<-|[]]]].
  - exists (S2L "C", S2L "D[-1]"). repeat split; [right; left; reflexivity|left; reflexivity|discriminate].
  - exists (S2L "D", S2L "B"). repeat split; [right; right; left; reflexivity|left; reflexivity|discriminate].
  - exists (S2L "B", S2L "C + 1"). repeat split; [left; reflexivity|left; reflexivity|discriminate].
Qed.
(** Accepted: identities that use only identities that come before them in the alphabetical order. *)
Theorem C54_accepted_partial : forall all,
  (forall i j x z, nth_error all i = Some x -> nth_error all j = Some z -> depends x z -> (j < i)%nat) ->
  reorder all = Some (seq 0 (length all)).
Proof. exact reorder_forward. Qed.
Print Assumptions C54_accepted_partial.
(** Missing: identities that are not circular are refused, always when the first one uses no identity and another one
    uses an identity that comes later in the alphabetical order. *)
Theorem C54_accepted_refuted : forall all x0 i j x z, well_named all -> nth_error all 0 = Some x0 ->
  (forall v, In v all -> ~ depends x0 v) ->
  nth_error all i = Some x -> nth_error all j = Some z -> depends x z -> (i < j)%nat -> reorder all = None.
Proof. exact reorder_backward. Qed.
Print Assumptions C54_accepted_refuted.
Definition ex_refused := [("A", "X"); ("B", "C"); ("C", "A")]%string.
Example C54_refused_ex : well_named (idts ex_refused) /\ run ex_refused [] (years 2001 2002) "B" = Ok None /\
  run [("B", "C"); ("C", "A")]%string [] (years 2001 2002) "B" = values [None; Some 2; Some 3; None].
Proof. split; [named|]. split; vm_compute; reflexivity. Qed.

(** * C55: the values *)
(** The identity holds at each period of the sample of execution, in the workspace that results, with its own values
    taken before the execution from that period on. *)
Theorem C55_values : forall A rb all ws scls sfiles xs vs d out n text,
  well_named all -> d_smp ws = Some vs -> real_sample vs -> real_sample xs ->
  difference (s_start xs) (s_start vs) = Ok d -> execute_idents A rb all ws [] scls sfiles xs = Ok (Some out) ->
  In (n, text) all -> let old := match get n (d_vars ws) with Some g => g | None => fun _ => na A end in
  exists h, out n = Some h /\ forall t, d <= t < d + s_nb xs ->
    evaluate A (own {| var_at := out; scalar := fun _ => None; smp := vs |} n old h t) rb text t = Ok (h t).
Proof. exact whole_ws. Qed.
Print Assumptions C55_values.
(** An identity that does not use its own name holds in the workspace. *)
Theorem C55_holds : forall A rb all ws scls sfiles xs vs d out n text,
  well_named all -> d_smp ws = Some vs -> real_sample vs -> real_sample xs ->
  difference (s_start xs) (s_start vs) = Ok d -> execute_idents A rb all ws [] scls sfiles xs = Ok (Some out) ->
  In (n, text) all -> ~ In n (used text) ->
  exists h, out n = Some h /\ forall t, d <= t < d + s_nb xs ->
    evaluate A {| var_at := out; scalar := fun _ => None; smp := vs |} rb text t = Ok (h t).
Proof.
  intros A rb all w sc sf xs vs d out n text W V Rv Rx D H I U.
  destruct (whole_ws A rb all w sc sf xs vs d out n text W V Rv Rx D H I) as (h & O & K). exists h. split; [exact O|].
  intros t Ht. rewrite <- (K t Ht). apply L_Same.evaluate_ext. split; [reflexivity|]. intros m Im. split; [reflexivity|].
  cbn. destruct (str_eqb_spec m n) as [->|_]; [contradiction|]. destruct (out m); auto.
Qed.
Print Assumptions C55_holds.
Definition ex_values := [("A", "A[-1] + X"); ("B", "C * 2"); ("C", "X[-1]")]%string.
Example C55_ex : well_named (idts ex_values) /\ real_sample (years 2001 2002) /\
  run ex_values [] (years 2001 2002) "A" = Ok None /\
  run (tl ex_values) [] (years 2001 2002) "B" = values [None; Some 20; Some 40; None] /\
  run (firstn 1 ex_values) [] (years 2001 2002) "A" = values [Some 1; Some 21; Some 51; Some 4] /\
  run (firstn 1 ex_values) [] (years 2001 2002) "X" = values [Some 10; Some 20; Some 30; Some 40].
Proof. split; [named|]. split; [apply years_real; lia|]. repeat split; vm_compute; reflexivity. Qed.

(** * C56: what is not executed is not changed *)
Theorem C56_frame : forall A rb all ws vfiles scls sfiles xs vs d out,
  well_named all -> d_smp ws = Some vs -> real_sample vs -> real_sample xs -> real_samples ws vfiles ->
  difference (s_start xs) (s_start vs) = Ok d -> execute_idents A rb all ws vfiles scls sfiles xs = Ok (Some out) ->
  0 <= d /\ d + s_nb xs <= s_nb vs /\
  (forall m, ~ In m (map fst all) -> out m = get m (d_vars ws)) /\
  (forall n, In n (map fst all) -> exists h, out n = Some h /\
     forall i, 0 <= i < s_nb vs -> ~ d <= i < d + s_nb xs -> h i = match get n (d_vars ws) with Some g => g i | None => na A end).
Proof.
  intros A rb all w vf sc sf xs vs d out W V Rv Rx Rs D H.
  destruct (whole A rb all w vf sc sf xs vs d out W V Rv Rx Rs D H) as (Hd & Hn & E & _ & _ & _ & K & O).
  repeat split; auto. intros n I. apply in_map_iff in I. destruct I as ([k text] & <- & I).
  destruct (K k text I) as (old & new & h & _ & _ & _ & _ & Oh & _ & Ho). exists h. auto.
Qed.
Print Assumptions C56_frame.

(** * C57: coefficients *)
(** False: no identity that uses a coefficient is executed, whatever the scalars are. *)
Theorem C57_coefficients_refuted : forall A rb all ws vfiles scls sfiles xs out n text c,
  In (n, text) all -> In c (used text) -> is_coefficient c = true ->
  execute_idents A rb all ws vfiles scls sfiles xs <> Ok (Some out).
Proof.
  intros A rb all w vf sc sf xs out n text c I U C H. unfold execute_idents in H.
  destruct (ki_exec A rb all w vf sc sf (Some xs)) as [[[ks o]|]| |] eqn:K; try discriminate. cbn [rbind] in H.
  destruct (d_smp w) as [vs|] eqn:V; [|discriminate].
  destruct (ki_exec_ok A rb all w vf sc sf xs vs ks o V K) as (d & e & order & vars & E & _ & _ & _ & _ & _ & _ & S & _).
  assert (In c (scalar_list all)) as B by (apply scalar_in; split; eauto). rewrite S in B. destruct B.
Qed.
Print Assumptions C57_coefficients_refuted.
Example C57_ex : execute_idents double nr (idts [("B", "alpha * X")]%string) ws [] [S2L "alpha"] [] (years 2001 2002) = Ok None /\
  run [("B", "2 * X")]%string [] (years 2001 2002) "B" = values [None; Some 40; Some 60; None].
Proof. split; vm_compute; reflexivity. Qed.

(** * C58: where the variables come from *)
(** The identities are calculated with the variables of the first source that has them, in the order of the list, NA
    outside the sample of this source; the identities that no source has start from NA. *)
Theorem C58_sources : forall A rb all ws vfiles scls sfiles xs vs d out,
  well_named all -> d_smp ws = Some vs -> real_sample vs -> real_sample xs -> real_samples ws vfiles ->
  difference (s_start xs) (s_start vs) = Ok d -> execute_idents A rb all ws vfiles scls sfiles xs = Ok (Some out) ->
  exists E : env A, smp E = vs /\
  (forall n text m, In (n, text) all -> In m (used text) -> ~ In m (map fst all) ->
     first_source ws (sources vfiles) m <> None /\
     exists g, var_at E m = Some g /\ read_from vs (first_source ws (sources vfiles) m) g) /\
  (forall n text, In (n, text) all -> exists old new h, var_at E n = Some new /\
     read_from vs (first_source ws (sources vfiles) n) old /\
     (forall i, ~ d <= i < d + s_nb xs -> new i = old i) /\
     (forall t, d <= t < d + s_nb xs -> evaluate A (own E n old new t) rb text t = Ok (new t)) /\
     out n = Some h /\ forall i, d <= i < d + s_nb xs -> h i = new i).
Proof.
  intros A rb all w vf sc sf xs vs d out W V Rv Rx Rs D H.
  destruct (whole A rb all w vf sc sf xs vs d out W V Rv Rx Rs D H) as (_ & _ & E & S & _ & X & K & _).
  exists E. split; [exact S|]. split; [exact X|]. intros n text I.
  destruct (K n text I) as (old & new & h & K1 & K2 & K3 & K4 & K5 & K6 & _). exists old, new, h. repeat split; auto.
Qed.
Print Assumptions C58_sources.
(** A variable that no source has: refused. *)
Theorem C58_missing : forall A rb all ws vfiles scls sfiles xs vs out n text m,
  well_named all -> d_smp ws = Some vs -> real_sample vs -> real_sample xs -> real_samples ws vfiles ->
  In (n, text) all -> In m (used text) -> ~ In m (map fst all) -> first_source ws (sources vfiles) m = None ->
  execute_idents A rb all ws vfiles scls sfiles xs <> Ok (Some out).
Proof.
  intros A rb all w vf sc sf xs vs out n text m W V Rv Rx Rs I U Nm F H.
  destruct (difference (s_start xs) (s_start vs)) as [d| |] eqn:D.
  - destruct (whole A rb all w vf sc sf xs vs d out W V Rv Rx Rs D H) as (_ & _ & E & _ & _ & X & _).
    apply (X n text m I U Nm). exact F.
  - unfold execute_idents, ki_exec in H. rewrite V, D in H. destruct (difference (s_end vs) (s_end xs)); try discriminate.
    cbn [rbind] in H. destruct (_ <? 0) in H; discriminate.
  - unfold execute_idents, ki_exec in H. rewrite V, D in H. destruct (difference (s_end vs) (s_end xs)); try discriminate.
    cbn [rbind] in H. destruct (_ <? 0) in H; discriminate.
Qed.
Print Assumptions C58_missing.
Definition file : db double := mkDb (Some (years 2002 2005)) [(S2L "X", series [7; 8; 9; 6]); (S2L "Z", series [1; 1; 1; 1])].
Example C58_ex : real_samples ws [S_file (Some file); S_ws] /\
  run [("B", "X + A")]%string [S_file (Some file); S_ws] (years 2001 2003) "B" = values [None; None; Some 10; Some 12] /\
  run [("B", "X + A")]%string [S_ws; S_file (Some file)] (years 2001 2003) "B" = values [None; Some 22; Some 33; Some 44] /\
  run [("B", "X + A")]%string [S_file (Some file)] (years 2001 2003) "B" = Ok None.
Proof.
  split.
  - intros f d s [<-|[<-|[]]] C S; injection C as <-; injection S as <-; apply years_real; lia.
  - repeat split; vm_compute; reflexivity.
Qed.
