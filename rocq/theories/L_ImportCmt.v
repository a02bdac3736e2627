From Coq Require Import ZArith Ascii String List Bool Lia Sorted.
From Verif Require Import M_Base M_Report M_Time M_Names M_Lex M_Double M_Kdb M_Grep M_Ascii M_Import M_ImportCmt
  S_Names S_Grep S_Ascii S_Import S_ImportCmt L_Time L_Names L_Kdb L_Ascii L_Ascii2 L_Import T_Ascii T_Import.
Import ListNotations.
Open Scope Z_scope.

Definition taken (t : str) : str := M_Report.strip (map lf_to_sp t).
Lemma drop_low_split s : Forall (fun c => 32 <= code c) s -> exists k, s = repeat SP k ++ drop_low s /\ match drop_low s with c :: _ => c <> SP | [] => True end.
Proof.
  induction s as [|c s IH]; intros F; [exists O; split; [reflexivity|exact I]|]. inversion F as [|? ? C F']; subst. cbn [drop_low].
  destruct (code c <=? 32) eqn:E.
  - destruct (IH F') as (k & E1 & E2). exists (S k). split; [|exact E2]. cbn [repeat app]. f_equal; [|exact E1]. apply (code_eq c 32); lia.
  - exists O. split; [reflexivity|]. intros ->. vm_compute in E. discriminate E.
Qed.
Lemma rep_rev (k : nat) : rev (repeat SP k) = repeat SP k.
Proof. induction k as [|k IH]; [reflexivity|]. cbn [repeat rev]. rewrite IH. clear. induction k as [|k IH]; [reflexivity|]. cbn [repeat app]. f_equal. exact IH. Qed.
Lemma taken_imported t : plain t -> imported t (taken t).
Proof.
  intros (P & _). assert (Q : Forall (fun c => 32 <= code c) (rev (map lf_to_sp t))).
  { apply Forall_rev, Forall_forall. intros c H. apply in_map_iff in H as (d & <- & Hd). unfold printable in P. rewrite Forall_forall in P. specialize (P d Hd).
    unfold lf_to_sp. destruct (code d =? 10) eqn:E; [vm_compute; discriminate|lia]. }
  destruct (drop_low_split _ Q) as (k & E1 & E2). exists k. split.
  - unfold taken, M_Report.strip. apply (f_equal (@rev ascii)) in E1. rewrite rev_involutive, rev_app_distr, rep_rev in E1.
    change (chr 32) with SP. rewrite <- E1. clear. induction t as [|c t IH]; [constructor|]. cbn [map]. constructor; [|exact IH].
    unfold lf_to_sp. destruct (code c =? 10) eqn:E; [apply Z.eqb_eq in E; rewrite (code_eq c 10 ltac:(lia) E); apply SB_lf|]. apply SB_same. intros ->. vm_compute in E. discriminate E.
  - intros a E. unfold taken, M_Report.strip in E. apply (f_equal (@rev ascii)) in E. rewrite rev_involutive, rev_app_distr in E. rewrite E in E2. exact (E2 eq_refl).
Qed.

Section Loop.
Context (rs : rules).
Definition named (o : option str) (n : str) : Prop := IMP_change rs n = Ok o /\ match o with Some m => accepted COMMENTS m | None => True end.
Lemma loop_tail tail : forall db news fuel acc a t0 w0, blanks a -> Forall2 named news (map fst db) -> Forall plain (map snd db) ->
  (forall m, In m (map fst db) -> accepted COMMENTS m /\ ~ In (chr 35) m) ->
  exists a' t1 w1, blanks a' /\
    import_cmt_loop (length db + fuel) rs acc (mkY (a ++ save_comments db ++ tail) t0 w0 false) =
    import_cmt_loop fuel rs (puts_some (combine news (map (fun x => taken (snd x)) db)) acc) (mkY (a' ++ tail) t1 w1 false).
Proof.
  induction db as [|[n v] db IH]; intros news fuel acc a t0 w0 B G P H.
  - inversion G; subst. exists a, t0, w0. split; [exact B|reflexivity].
  - cbn [map fst snd] in *. inversion G as [|o ? news' ? [Ch Ac] G']; subst. inversion P as [|? ? Pv P']; subst. destruct (H n (or_introl eq_refl)) as [An Sn].
    pose proof (lf_plain v Pv) as (_ & Nc & Ln).
    cbn [length Nat.add import_cmt_loop save_comments flat_map fst snd]. fold (save_comments db).
    assert (E : a ++ ((n ++ SP :: quoted (map lf_to_sp v) ++ [LF]) ++ save_comments db) ++ tail = a ++ n ++ SP :: (quoted (map lf_to_sp v) ++ LF :: save_comments db ++ tail)).
    { f_equal. repeat rewrite <- app_assoc. cbn [app]. repeat rewrite <- app_assoc. reflexivity. }
    rewrite E. unfold read_comment. rewrite (lex_name COMMENTS [] a n _ t0 w0 B An Sn (fun x => x)). cbn [ibind is_text].
    pose proof (lex_string [] [SP] (map lf_to_sp v) (LF :: save_comments db ++ tail) Y_WORD n (blanks1 SP eq_refl) Nc Ln) as L. cbn [app] in L. rewrite L. cbn [ibind is_text text].
    assert (L79 : firstn 79 n = n). { assert (Len : (length n <= 20)%nat) by (destruct An as (c & u & _ & Len & _); exact Len). apply firstn_all2. lia. }
    rewrite L79, Ch. cbn [of_res ibind combine puts_some].
    destruct o as [m|].
    + rewrite (set_accepted COMMENTS acc m _ Ac). apply (IH news' fuel _ [LF] _ _ (blanks1 LF eq_refl) G' P'). intros k Hk. apply H. right. exact Hk.
    + apply (IH news' fuel _ [LF] _ _ (blanks1 LF eq_refl) G' P'). intros k Hk. apply H. right. exact Hk.
Qed.
End Loop.
Lemma save_printable db : Forall (accepted COMMENTS) (map fst db) -> Forall plain (map snd db) -> printable (save_comments db).
Proof.
  intros A P. apply (file_printable COMMENTS (fun t => quoted (map lf_to_sp t) ++ [LF]) db A). eapply Forall_impl; [|exact P].
  intros t Pt. apply quoted_printable. exact (proj1 (lf_plain t Pt)).
Qed.
(** A file that starts with the comments [db]. *)
Lemma import_tail rulefile rs db news tail : IMP_readrule rulefile = Ok rs -> database COMMENTS db -> no_sharp db -> Forall plain (map snd db) ->
  Forall2 (named rs) news (map fst db) -> printable tail ->
  exists fuel a t w, blanks a /\
    import_cmt rulefile (save_comments db ++ tail) =
    import_cmt_loop (S fuel) rs (puts_some (combine news (map (fun x => taken (snd x)) db)) []) (mkY (a ++ tail) t w false).
Proof.
  intros RR [_ A] N P G T. unfold import_cmt. rewrite RR. cbn [of_res ibind]. unfold opened.
  rewrite (delivered_printable (save_comments db ++ tail) 0 (printable_app _ _ (save_printable db A P) T)).
  assert (Len : (length db <= length (save_comments db ++ tail))%nat).
  { rewrite app_length. clear. induction db as [|[n v] db IH]; [cbn; lia|]. cbn [save_comments flat_map fst snd]. fold (save_comments db). repeat rewrite app_length. cbn [length]. lia. }
  unfold fuel_of. cbn [rest].
  destruct (loop_tail rs tail db news (S (S (2 * length (save_comments db ++ tail)) - length db)) [] [] Y_NONE [] ltac:(constructor) G P) as (a & t & w & B & E).
  { intros m Hm. rewrite Forall_forall in A. split; [apply A, Hm|apply N, Hm]. }
  eexists _, a, t, w. split; [exact B|]. rewrite <- E. cbn [app]. f_equal. lia.
Qed.
Lemma loop_stop rs fuel db y : (exists l y', lex [] y = Done (l, y') /\ is_text l = false) -> import_cmt_loop (S fuel) rs db y = Done db.
Proof. intros (l & y' & E & T). cbn [import_cmt_loop]. unfold read_comment. rewrite E. cbn [ibind]. rewrite T. reflexivity. Qed.
