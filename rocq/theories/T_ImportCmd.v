(** Property C108: the commands that import files. *)
From Coq Require Import ZArith Ascii String List Bool Lia.
From Verif Require Import M_Base M_Report M_Time M_Names M_Lex M_SimParms M_ImportCmd S_ImportCmd.
Import ListNotations.
Open Scope Z_scope.

Lemma letter_format c f : letter c f -> format_of [c] = f.
Proof. intros L. destruct L as [c I|c I|c I|c I|c I|c I|c I]; cbn in I; destruct I as [<- | [<- | []]]; reflexivity. Qed.
Lemma letter_eq c : match format_of [c] with F_ASCII => True | F_BISTEL => False | f => letter c f end.
Proof. destruct c as [[] [] [] [] [] [] [] []]; vm_compute format_of; cbv iota; first [exact I|constructor; vm_compute; tauto]. Qed.
Lemma format_first c w : format_of (c :: w) = format_of [c]. Proof. reflexivity. Qed.
Lemma strip_word t : no_blank_end t -> strip t = t.
Proof.
  intros [N F]. unfold strip. apply Forall_rev in F. destruct (rev t) as [|c r] eqn:E.
  - apply (f_equal (@rev ascii)) in E. rewrite rev_involutive in E. exfalso. exact (N E).
  - inversion F; subst. cbn [drop_low]. replace (code c <=? 32) with false by lia. rewrite <- E. apply rev_involutive.
Qed.

(** * The format *)
(** Every documented name selects its format, and only the first letter counts, in either case. *)
Theorem C108_format : (forall w f, documented w f -> format_of (S2L w) = f) /\ (forall c w f, letter c f -> format_of (c :: w) = f) /\
  (forall c w f, format_of (c :: w) = f -> f <> F_ASCII -> letter c f).
Proof.
  split; [|split].
  - intros w f D. destruct D; reflexivity.
  - intros c w f L. rewrite format_first. apply letter_format, L.
  - intros c w f <- N. rewrite format_first in *. pose proof (letter_eq c) as L. destruct (format_of [c]); try exact L; [congruence|contradiction].
Qed.
Print Assumptions C108_format.
(** Three of the documented formats import comments; the language is the one of the first letter. *)
Theorem C108_comment_formats : (forall w, In w ["Ascii"; "PRN"; "TXT_Belgostat"]%string -> reads_comments (format_of (S2L w)) = true) /\
  forall c w, (In c (S2L "Ee") -> language_of (c :: w) = 0) /\ (In c (S2L "Ff") -> language_of (c :: w) = 1) /\ (In c (S2L "Dd") -> language_of (c :: w) = 2).
Proof.
  split; [intros w [<- | [<- | [<- | []]]]; reflexivity|]. intros c w. split; [|split]; intros [<- | [<- | []]]; reflexivity.
Qed.
Print Assumptions C108_comment_formats.
(** A format that does not exist is taken as the format ASCII, with no error; the format Bistel, which has its readers, cannot be asked. *)
Theorem C108_unknown_refuted : (forall c w, (forall f, ~ letter c f) -> format_of (c :: w) = F_ASCII) /\ (forall w, format_of w <> F_BISTEL) /\
  format_of (S2L "Bistel") = F_ASCII /\ format_of (S2L "XML") = F_ASCII.
Proof.
  split; [|split; [|split; reflexivity]].
  - intros c w H. rewrite format_first. pose proof (letter_eq c) as L. destruct (format_of [c]); try reflexivity; first [contradiction|exfalso; exact (H _ L)].
  - intros [|c w]; [discriminate|]. rewrite format_first. pose proof (letter_eq c) as L. intros E. rewrite E in L. exact L.
Qed.
Print Assumptions C108_unknown_refuted.
Example C108_unknown_ex : forall f, ~ letter "X" f.
Proof. intros f L. inversion L as [c I E|c I E|c I E|c I E|c I E|c I E|c I E]; cbn in I; repeat (destruct I as [I|I]; [discriminate I|]); exact I. Qed.

Section Commands.
Context (C V : Type) (ic : format -> str -> str -> Z -> res (option C)) (iv : format -> str -> str -> sample -> res (option V)) (saves : str -> bool).

(** * Comments *)
(** The command reads with the format, the rules and the language that are asked, and writes what is read. *)
Theorem C108_comments : forall f rule infile oufile lang more, no_blank_end rule -> no_blank_end infile -> no_blank_end oufile ->
  reads_comments (format_of f) = true ->
  FileImportCmt C ic saves (f :: rule :: infile :: oufile :: lang :: more) =
    match ic (format_of f) rule infile (language_of lang) with
    | Ok (Some k) => Ok (0, if saves oufile then Some (oufile, k) else None)
    | Ok None => Ok (-1, None)
    | Throw => Throw
    | UB => UB
    end.
Proof.
  intros f rule infile oufile lang more R I O F. cbn [FileImportCmt]. unfold RuleImportCmt. rewrite F, !strip_word by assumption.
  destruct (ic _ _ _ _) as [[k|]| |]; reflexivity.
Qed.
(** Four of the seven documented formats have no reader of comments: nothing is read or written, and the code is -1. *)
Theorem C108_comments_format_refuted : forall w, In w ["Rotated_Ascii"; "DIF"; "NIS"; "GEM"]%string ->
  (exists f, documented w f) /\ forall l, FileImportCmt C ic saves (S2L w :: l) = Ok (-1, None).
Proof.
  intros w H. cbn in H. destruct H as [<- | [<- | [<- | [<- | []]]]]; (split; [eexists; constructor|]); intros [|a [|b [|c [|d l]]]]; reflexivity.
Qed.
(** * Variables *)
Theorem C108_variables : forall f rule infile oufile from to more p q s,
  no_blank_end rule -> no_blank_end infile -> no_blank_end oufile -> no_blank_end from -> no_blank_end to ->
  parse_period from = Ok p -> parse_period to = Ok q -> make_sample p q = Ok s ->
  FileImportVar V iv saves (f :: rule :: infile :: oufile :: from :: to :: more) =
    match iv (format_of f) rule infile s with
    | Ok (Some k) => Ok (0, if saves oufile then Some (oufile, k) else None)
    | Ok None => Ok (-1, None)
    | Throw => Throw
    | UB => UB
    end.
Proof.
  intros f rule infile oufile from to more p q s R I O F T P Q S. cbn [FileImportVar]. unfold RuleImportVar. rewrite !strip_word by assumption.
  destruct F as [NF _]. destruct T as [NT _]. destruct from as [|c from]; [congruence|]. destruct to as [|d to]; [congruence|].
  rewrite P. cbn [rbind]. rewrite Q. cbn [rbind]. rewrite S. destruct (iv _ _ _ _) as [[k|]| |]; reflexivity.
Qed.
(** Bounds that are not periods, or that are in the wrong order: nothing is read or written, and the code is -1. *)
Theorem C108_bounds : forall f rule infile oufile from to more, no_blank_end from -> no_blank_end to ->
  (parse_period from = Throw \/ exists p, parse_period from = Ok p /\ (parse_period to = Throw \/ exists q, parse_period to = Ok q /\ make_sample p q = Throw)) ->
  FileImportVar V iv saves (f :: rule :: infile :: oufile :: from :: to :: more) = Ok (-1, None).
Proof.
  intros f rule infile oufile from to more F T H. cbn [FileImportVar]. unfold RuleImportVar. rewrite !strip_word by assumption.
  destruct F as [NF _]. destruct T as [NT _]. destruct from as [|c from]; [congruence|]. destruct to as [|d to]; [congruence|].
  destruct H as [-> | (p & -> & [-> | (q & -> & H)])]; cbn [rbind]; [reflexivity|reflexivity|rewrite H; reflexivity].
Qed.
(** * Both *)
(** Too few arguments: nothing is read or written. *)
Theorem C108_few : (forall args, (length args < 5)%nat -> FileImportCmt C ic saves args = Ok (-1, None)) /\ (forall args, (length args < 6)%nat -> FileImportVar V iv saves args = Ok (-1, None)).
Proof. split; intros args H; repeat (destruct args as [|? args]; [reflexivity|cbn [length] in H]); lia. Qed.
(** A code other than 0 means that nothing was written. The converse is false, see below. *)
Theorem C108_failed : (forall args code w, FileImportCmt C ic saves args = Ok (code, w) -> code <> 0 -> code = -1 /\ w = None) /\ (forall args code w, FileImportVar V iv saves args = Ok (code, w) -> code <> 0 -> code = -1 /\ w = None).
Proof.
  assert (SR : forall X o (k : option X) code w, Ok (save_result saves o k) = Ok (code, w) -> code <> 0 -> code = -1 /\ w = None).
  { intros X o [k|] code w E N; cbn in E; injection E as <- <-; [congruence|auto]. }
  assert (M1 : forall X code (w : option X), Ok (-1, None) = Ok (code, w) -> code = -1 /\ w = None) by (intros X code w E; injection E as <- <-; auto).
  split.
  - intros args code w. destruct args as [|f [|r [|i [|o [|l m]]]]]; cbn [FileImportCmt]; try (intros E _; apply M1 in E; exact E). unfold RuleImportCmt.
    destruct (reads_comments _); [|intros E _; apply M1 in E; exact E]. destruct (ic _ _ _ _) as [k| |]; cbn [rbind]; try discriminate. apply SR.
  - intros args code w. destruct args as [|f [|r [|i [|o [|a [|b m]]]]]]; cbn [FileImportVar]; try (intros E _; apply M1 in E; exact E). unfold RuleImportVar.
    destruct (strip a); [intros E _; apply M1 in E; exact E|]. destruct (strip b); [intros E _; apply M1 in E; exact E|].
    destruct (do p <- _; _) as [smp| |]; [|intros E _; apply M1 in E; exact E|discriminate]. destruct (iv _ _ _ _) as [k| |]; cbn [rbind]; try discriminate. apply SR.
Qed.
(** The code is 0 when the output file cannot be written: whatever is imported, it is lost and the command succeeds. *)
Theorem C108_unsaved_refuted : forall f rule infile oufile lang more k, no_blank_end rule -> no_blank_end infile -> no_blank_end oufile ->
  reads_comments (format_of f) = true -> ic (format_of f) rule infile (language_of lang) = Ok (Some k) -> saves oufile = false ->
  FileImportCmt C ic saves (f :: rule :: infile :: oufile :: lang :: more) = Ok (0, None).
Proof. intros f rule infile oufile lang more k R I O F K S. rewrite C108_comments by assumption. rewrite K, S. reflexivity. Qed.
End Commands.
Print Assumptions C108_comments. Print Assumptions C108_comments_format_refuted. Print Assumptions C108_variables. Print Assumptions C108_bounds.
Print Assumptions C108_few. Print Assumptions C108_failed. Print Assumptions C108_unsaved_refuted.
Definition ex_ic (f : format) (rule infile : str) (lang : Z) : res (option Z) := if str_eqb infile (S2L "in.txt") then Ok (Some lang) else Ok None.
Definition ex_iv (f : format) (rule infile : str) (s : sample) : res (option Z) := Ok (Some (s_nb s)).
Example C108_comments_ex : no_blank_end (S2L "in.txt") /\
  map (fun l => FileImportCmt Z ex_ic (fun o => negb (str_eqb o (S2L "full/x"))) (map S2L l))
    [["txt"; "r"; "in.txt"; "out"; "Dutch"]; ["A"; "r"; "none"; "out"; "E"]; ["PRN"; "r"; "in.txt"; "full/x"; "F"]; ["DIF"; "r"; "in.txt"; "out"; "E"]]%string =
  [Ok (0, Some (S2L "out", 2)); Ok (-1, None); Ok (0, None); Ok (-1, None)].
Proof. split; [split; [discriminate|repeat (constructor; [vm_compute; reflexivity|]); constructor]|vm_compute; reflexivity]. Qed.
Example C108_variables_ex :
  map (fun l => FileImportVar Z ex_iv (fun _ => true) (map S2L l))
    [["DIF"; "r"; "in"; "out"; "2000Y1"; "2004Y1"]; ["DIF"; "r"; "in"; "out"; "2000Y1"; "1999Y1"]; ["DIF"; "r"; "in"; "out"; "2000Y1"; "xx"]; ["DIF"; "r"; "in"; "out"; "2000Y1"]]%string =
  [Ok (0, Some (S2L "out", 5)); Ok (-1, None); Ok (-1, None); Ok (-1, None)].
Proof. vm_compute. reflexivity. Qed.
