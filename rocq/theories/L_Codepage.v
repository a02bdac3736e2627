(** The conversions between CP850 and UTF-8. *)
From Coq Require Import ZArith Ascii String List Bool Lia.
From Verif Require Import M_Base M_Names M_Lex M_Kdb M_Codepage M_Binary S_Binary.
Import ListNotations.
Open Scope Z_scope.

Lemma code_range c : 0 <= code c < 256.
Proof. unfold code. split; [lia|]. pose proof (N_ascii_bounded c). lia. Qed.
Lemma chr_code c : chr (code c) = c.
Proof. unfold chr, code. rewrite N2Z.id. apply ascii_N_embedding. Qed.
Lemma code_chr z : 0 <= z < 256 -> code (chr z) = z.
Proof. intros H. unfold chr, code. rewrite N_ascii_embedding; lia. Qed.
Lemma ascii_eqb_true a b : ascii_eqb a b = true -> a = b.
Proof. unfold ascii_eqb. intros H. apply Z.eqb_eq in H. rewrite <- (chr_code a), H. apply chr_code. Qed.
Lemma ascii_eqb_rfl a : ascii_eqb a a = true.
Proof. apply Z.eqb_refl. Qed.

Lemma cstr_clean s : clean s -> cstr s = s.
Proof.
  induction 1 as [|c s H _ IH]; cbn; [reflexivity|]. destruct (code c =? 0) eqn:E; [apply Z.eqb_eq in E; contradiction|].
  now rewrite IH.
Qed.
Lemma clean_cstr s : clean (cstr s).
Proof. induction s as [|c s IH]; cbn; [constructor|]. destruct (code c =? 0) eqn:E; constructor; [now apply Z.eqb_neq|exact IH]. Qed.
Lemma clean_app a b : clean a -> clean b -> clean (a ++ b).
Proof. intros. apply Forall_app. now split. Qed.

Lemma strip_prefix_some p : forall s r, strip_prefix p s = Some r -> s = p ++ r.
Proof.
  induction p as [|x p IH]; intros s r H; cbn in H; [injection H as <-; reflexivity|].
  destruct s as [|y s]; [discriminate|]. destruct (ascii_eqb x y) eqn:E; [|discriminate].
  apply ascii_eqb_true in E as ->. cbn. f_equal. now apply IH.
Qed.

Lemma find_char_some table : forall b s c r, find_char table b s = Some (c, r) ->
  exists i u, nth_error table i = Some u /\ c = chr (b + Z.of_nat i) /\ s = utf8_char u ++ r.
Proof.
  induction table as [|u table IH]; intros b s c r H; cbn in H; [discriminate|].
  destruct (strip_prefix (utf8_char u) s) eqn:E.
  - injection H as <- <-. exists O, u. rewrite Z.add_0_r. repeat split. now apply strip_prefix_some.
  - apply IH in H as (i & v & H1 & H2 & H3). exists (S i), v. cbn [nth_error]. repeat split; [exact H1| |exact H3].
    rewrite H2. f_equal. lia.
Qed.

Lemma cp850_length : length cp850 = 128%nat. Proof. reflexivity. Qed.
Lemma cp850_big : Forall (fun u => 128 <= u < 65536) cp850.
Proof. unfold cp850. repeat constructor; lia. Qed.

Lemma utf8_char_clean u : 0 < u < 65536 -> clean (utf8_char u).
Proof.
  intros H. unfold utf8_char.
  assert (0 <= u mod 64 < 64) by (apply Z.mod_pos_bound; lia).
  assert (0 <= (u / 64) mod 64 < 64) by (apply Z.mod_pos_bound; lia).
  destruct (u <? 128) eqn:E1; [apply Z.ltb_lt in E1|apply Z.ltb_ge in E1; destruct (u <? 2048) eqn:E2; [apply Z.ltb_lt in E2|apply Z.ltb_ge in E2]].
  - repeat constructor. rewrite code_chr; lia.
  - assert (2 <= u / 64 < 32) by (split; [apply Z.div_le_lower_bound|apply Z.div_lt_upper_bound]; lia).
    repeat constructor; rewrite code_chr; lia.
  - assert (0 <= u / 4096 < 16) by (split; [apply Z.div_le_lower_bound|apply Z.div_lt_upper_bound]; lia).
    repeat constructor; rewrite code_chr; lia.
Qed.
Lemma known_range u : known u -> 0 < u < 65536.
Proof.
  intros [H|H]; [lia|]. pose proof cp850_big as B. rewrite Forall_forall in B. specialize (B _ H). lia.
Qed.
Lemma spelled_clean l : Forall known l -> clean (spelled l).
Proof.
  induction 1 as [|u l H _ IH]; cbn; [constructor|]. apply clean_app; [apply utf8_char_clean, known_range, H|exact IH].
Qed.

(** The character of a byte. *)
Definition uni (c : ascii) : Z := if code c <? 128 then code c else nth (Z.to_nat (code c - 128)) cp850 0.
Lemma oem_char_uni c : oem_char c = utf8_char (uni c).
Proof.
  unfold oem_char, uni. destruct (code c <? 128) eqn:E; [|reflexivity]. unfold utf8_char. rewrite E, chr_code. reflexivity.
Qed.
Lemma uni_known c : code c <> 0 -> known (uni c).
Proof.
  intros H. pose proof (code_range c). unfold uni, known. destruct (code c <? 128) eqn:E; [apply Z.ltb_lt in E; left; lia|].
  apply Z.ltb_ge in E. right. apply nth_In. rewrite cp850_length. lia.
Qed.
Lemma oem_spelled t : clean t -> oem_to_utf8 t = spelled (map uni t) /\ Forall known (map uni t).
Proof.
  intros H. unfold oem_to_utf8. rewrite (cstr_clean _ H). induction H as [|c t H _ IH]; cbn; [now split|].
  destruct IH as [-> IH]. split; [now rewrite oem_char_uni|constructor; [now apply uni_known|exact IH]].
Qed.
Lemma oem_clean t : clean (oem_to_utf8 t).
Proof.
  assert (oem_to_utf8 t = oem_to_utf8 (cstr t)) as ->
    by (unfold oem_to_utf8; now rewrite (cstr_clean (cstr t)) by apply clean_cstr).
  destruct (oem_spelled _ (clean_cstr t)) as [-> H]. now apply spelled_clean.
Qed.

(** Every byte above 127 is found again. *)
Lemma find_char_hit c r : 128 <= code c -> find_char cp850 128 (oem_char c ++ r) = Some (c, r).
Proof.
  intros H. destruct c as [[|] [|] [|] [|] [|] [|] [|] [|]]; try (exfalso; revert H; vm_compute; congruence); reflexivity.
Qed.
Lemma oem_char_head c : 128 <= code c -> exists x s, oem_char c = x :: s /\ 128 <= code x.
Proof.
  intros H. destruct c as [[|] [|] [|] [|] [|] [|] [|] [|]]; try (exfalso; revert H; vm_compute; congruence);
    (eexists; eexists; split; [vm_compute; reflexivity|vm_compute; congruence]).
Qed.

Lemma to_oem_of t : forall fuel, clean t -> (length (flat_map oem_char t) <= fuel)%nat -> to_oem fuel (flat_map oem_char t) = Ok t.
Proof.
  induction t as [|c t IH]; intros fuel H L; cbn [flat_map] in *; [destruct fuel; reflexivity|].
  inversion H as [|? ? Hc Ht]; subst.
  destruct (Z_lt_ge_dec (code c) 128) as [C|C].
  - assert (E : (code c <? 128) = true) by (apply Z.ltb_lt; lia).
    unfold oem_char in *. rewrite E in *. cbn [app length] in *.
    destruct fuel as [|fuel]; [lia|]. cbn [to_oem]. rewrite E. rewrite IH by (auto; lia). reflexivity.
  - destruct (oem_char_head c ltac:(lia)) as (x & s & E & X).
    pose proof (find_char_hit c (flat_map oem_char t) ltac:(lia)) as F.
    rewrite E in F, L |- *. cbn [app] in F, L |- *. cbn [length] in L. destruct fuel as [|fuel]; [lia|].
    cbn [to_oem]. destruct (code x <? 128) eqn:X2; [apply Z.ltb_lt in X2; lia|]. rewrite F.
    rewrite IH; [reflexivity|exact Ht|]. rewrite app_length in L. lia.
Qed.

Lemma oem_utf8_oem t : clean t -> utf8_to_oem (oem_to_utf8 t) = Ok t.
Proof.
  intros H. unfold utf8_to_oem. rewrite (cstr_clean _ (oem_clean t)). unfold oem_to_utf8. rewrite (cstr_clean _ H).
  apply to_oem_of; [exact H|lia].
Qed.

Lemma to_oem_sound fuel : forall s t, to_oem fuel s = Ok t -> clean s -> s = flat_map oem_char t /\ clean t.
Proof.
  induction fuel as [|fuel IH]; intros s t H C.
  - destruct s; [injection H as <-; split; [reflexivity|constructor]|discriminate].
  - destruct s as [|c s]; [injection H as <-; split; [reflexivity|constructor]|]. cbn [to_oem] in H.
    inversion C as [|? ? Cc Cs]; subst.
    destruct (code c <? 128) eqn:E.
    + destruct (to_oem fuel s) as [t'| |] eqn:T; try discriminate. cbn in H. injection H as <-.
      destruct (IH _ _ T Cs) as [-> T2]. split; [|constructor; assumption]. cbn. unfold oem_char at 2. rewrite E. reflexivity.
    + destruct (find_char cp850 128 (c :: s)) as [[b r]|] eqn:F; [|discriminate].
      destruct (to_oem fuel r) as [t'| |] eqn:T; try discriminate. cbn in H. injection H as <-.
      apply find_char_some in F as (i & u & N & -> & S). rewrite S in *.
      assert (I : (i < 128)%nat) by (rewrite <- cp850_length; apply nth_error_Some; congruence).
      apply Forall_app in C as [_ Cr]. destruct (IH _ _ T Cr) as [-> T2].
      split; [|constructor; [cbv beta; rewrite code_chr by lia; lia|assumption]].
      cbn [flat_map]. replace (oem_char (chr (128 + Z.of_nat i))) with (utf8_char u); [reflexivity|].
      unfold oem_char. rewrite code_chr by lia.
      destruct (128 + Z.of_nat i <? 128) eqn:G; [apply Z.ltb_lt in G; lia|].
      replace (Z.to_nat (128 + Z.of_nat i - 128)) with i by lia. now rewrite (nth_error_nth _ _ 0 N).
Qed.

Lemma utf8_oem_utf8 s t : clean s -> utf8_to_oem s = Ok t -> clean t /\ oem_to_utf8 t = s.
Proof.
  intros C H. unfold utf8_to_oem in H. rewrite (cstr_clean _ C) in H. apply to_oem_sound in H as [-> T]; [|exact C].
  split; [exact T|]. unfold oem_to_utf8. now rewrite (cstr_clean _ T).
Qed.

Lemma to_oem_total fuel : forall s, (length s <= fuel)%nat -> to_oem fuel s <> UB.
Proof.
  induction fuel as [|fuel IH]; intros s L.
  - destruct s; [discriminate|cbn in L; lia].
  - destruct s as [|c s]; [discriminate|]. cbn [to_oem length] in *.
    destruct (code c <? 128).
    + specialize (IH s ltac:(lia)). destruct (to_oem fuel s); congruence || discriminate.
    + destruct (find_char cp850 128 (c :: s)) as [[b r]|] eqn:F; [|discriminate].
      apply find_char_some in F as (i & u & N & -> & S).
      assert (length (utf8_char u) <> O).
      { unfold utf8_char. destruct (u <? 128); [discriminate|]. destruct (u <? 2048); discriminate. }
      assert (length r <= fuel)%nat by (apply (f_equal (@length _)) in S; rewrite app_length in S; cbn in S; lia).
      specialize (IH r ltac:(lia)). destruct (to_oem fuel r); congruence || discriminate.
Qed.
Lemma utf8_to_oem_total s : utf8_to_oem s <> UB.
Proof. apply to_oem_total. lia. Qed.

(** A text of the code page is the image of a text of bytes. *)
Lemma known_byte u : known u -> exists c, code c <> 0 /\ uni c = u.
Proof.
  intros [H|H].
  - exists (chr u). rewrite code_chr by lia. split; [lia|]. unfold uni. rewrite code_chr by lia.
    destruct (u <? 128) eqn:E; [reflexivity|apply Z.ltb_ge in E; lia].
  - apply (In_nth_error cp850) in H as [i H].
    assert (I : (i < 128)%nat) by (rewrite <- cp850_length; apply nth_error_Some; congruence).
    exists (chr (128 + Z.of_nat i)). rewrite code_chr by lia. split; [lia|]. unfold uni. rewrite code_chr by lia.
    destruct (128 + Z.of_nat i <? 128) eqn:G; [apply Z.ltb_lt in G; lia|].
    replace (Z.to_nat (128 + Z.of_nat i - 128)) with i by lia. now apply nth_error_nth.
Qed.
Lemma in_codepage_oem l : Forall known l -> exists t, clean t /\ map uni t = l /\ oem_to_utf8 t = spelled l.
Proof.
  intros H. assert (exists t, clean t /\ map uni t = l) as (t & C & E).
  { induction H as [|u l H _ (t & C & E)]; [exists []; split; [constructor|reflexivity]|].
    destruct (known_byte u H) as (c & Hc & Hu). exists (c :: t). split; [constructor; assumption|cbn; congruence]. }
  exists t. repeat split; [exact C|exact E|]. rewrite <- E. apply oem_spelled, C.
Qed.
Lemma in_codepage_text s : in_codepage s -> exists t, clean t /\ utf8_to_oem s = Ok t /\ oem_to_utf8 t = s.
Proof.
  intros (l & H & ->). destruct (in_codepage_oem l H) as (t & C & _ & E). exists t. rewrite <- E.
  repeat split; [exact C|now apply oem_utf8_oem].
Qed.
Lemma text_in_codepage t : clean t -> in_codepage (oem_to_utf8 t).
Proof. intros C. destruct (oem_spelled t C) as [E H]. now exists (map uni t). Qed.
Lemma outside_throws s : clean s -> ~ in_codepage s -> utf8_to_oem s = Throw.
Proof.
  intros C N. destruct (utf8_to_oem s) as [t| |] eqn:E; [|reflexivity|now apply utf8_to_oem_total in E].
  exfalso. apply N. destruct (utf8_oem_utf8 s t C E) as [T <-]. now apply text_in_codepage.
Qed.
Lemma in_codepage_clean s : in_codepage s -> clean s.
Proof. intros (l & H & ->). now apply spelled_clean. Qed.
Lemma ascii_oem s : ascii_text s -> utf8_to_oem s = Ok s /\ oem_to_utf8 s = s.
Proof.
  intros H. assert (C : clean s) by (eapply Forall_impl; [|exact H]; cbn; intros; lia).
  assert (E : oem_to_utf8 s = s).
  { unfold oem_to_utf8. rewrite (cstr_clean _ C). clear C. induction H as [|c s H _ IH]; cbn; [reflexivity|].
    unfold oem_char at 1. destruct (code c <? 128) eqn:X; [|apply Z.ltb_ge in X; lia]. cbn. now rewrite IH. }
  split; [|exact E]. rewrite <- E at 1. now apply oem_utf8_oem.
Qed.
Lemma oem_length t : clean t -> (length t <= length (oem_to_utf8 t))%nat.
Proof.
  intros C. unfold oem_to_utf8. rewrite (cstr_clean _ C). clear C. induction t as [|c t IH]; cbn; [lia|]. rewrite app_length.
  assert (length (oem_char c) <> O).
  { unfold oem_char. destruct (code c <? 128); [discriminate|]. unfold utf8_char.
    set (u := nth _ _ _). destruct (u <? 128); [discriminate|]. destruct (u <? 2048); discriminate. }
  lia.
Qed.
