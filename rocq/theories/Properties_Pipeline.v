(** * Property C115: from UTF-8 string to UTF-8 string

    A program that keeps its texts in utf8_strings: normalize one into another, and go on with the result.
    [utf8_text cs]: the text [cs] in UTF-8; [encodable]: the codepoints the library encodes right (C19, C20).
    [modifiers_placed], [form_alone] (Properties_Keep.v): C111; [nfd_condition] (Properties_Normalize.v): C49. *)
From Coq Require Import Permutation Sorted Relations.
From Verif Require Import Prelude DataTables UcdTables PropsModel Utf8Model TextModel StdSortModel Utf8Spec UnicodeSpec GraphemeSpec TextSpec NormSpec
  PropsProofs LawfulProofs DecompTables DecompProofs GraphemeProofs Uax29Proofs GraphemeText OrderProofs ComposeProofs NormData NormProofs HangulProofs NfcProofs NormText
  TextsProofs EquivProofs LocalMarks FormsProofs NormForms SubRange RangeTree KeepGraphemes EquivGraphemes
  Properties_Iteration Properties_Graphemes Properties_Normalize Properties_Sort Properties_Texts Properties_Forms Properties_Equivalence Properties_Keep.
Require Import ZifyBool ZifyNat.

Definition encodable (c : Z) : Prop := 1 <= c <= 0x7FF \/ 0x2000 <= c <= 0xFFFF \/ 0x80000 <= c <= 0x10FFFF.
(** [s := utf8_string(text)], [filter(s.grapheme_begin(), s.grapheme_end(), output, form)] for an empty utf8_string [output]. *)
Definition normalize_utf8 F (sort : list Z -> list Z) (fuel : nat) (s : list Z) : res (Z * list Z) :=
  normalize fuel (utf8_ops (string_buffer s)) (F sort utf8_append_from_utf32ne fuel (utf8_ops (string_buffer s))) 0 (zlen s) [].

Lemma encodable_31 u : Forall encodable u -> Forall codepoint31 u.
Proof. apply Forall_impl. intros c H. unfold encodable in H. unfold codepoint31. lia. Qed.
Lemma encodable_unicode u : Forall encodable u -> Forall unicode_codepoint u.
Proof. apply Forall_impl. intros c H. unfold encodable in H. unfold unicode_codepoint. lia. Qed.
Lemma text_injective x y : Forall codepoint31 x -> Forall codepoint31 y -> utf8_text x = utf8_text y -> x = y.
Proof.
  intros X Y E. destruct (C01_forward_iteration_string x (S (length x + length y)) X ltac:(lia)) as [A _].
  destruct (C01_forward_iteration_string y (S (length x + length y)) Y ltac:(lia)) as [B _]. cbv zeta in A, B. rewrite E in A. congruence.
Qed.
Lemma utf8_run F listed k full sort cs fuel : form_data F listed k full -> std_sort_ok sort -> Forall unicode_codepoint cs ->
  (length cs < fuel)%nat -> count_fits listed cs ->
  forall n u, normalize fuel (utf32_ops (string_buffer cs)) (F sort utf32_append_from_utf32ne fuel (utf32_ops (string_buffer cs))) 0 (zlen cs) [] = Ok (n, u) ->
  n = zlen u /\ (normalize_utf8 F sort fuel (utf8_text cs) = Ok (zlen u, utf8_text u) <-> Forall encodable u).
Proof.
  intros FD SO U Hf CF n u R. assert (FO : form_of F listed) by (destruct FD; constructor).
  destruct (C52_utf8_agrees_iff_partial F listed sort cs fuel [] FO SO U Hf CF) as (m & d & R' & I). cbv zeta in R', I. rewrite R in R'. injection R' as <- <-.
  assert (E : n = zlen u).
  { assert (D : delimited_text (utf32_ops (string_buffer cs)) 0 (zlen cs) cs) by (eapply delimited_string; constructor).
    rewrite (run_any32 F listed k full sort _ _ _ cs fuel [] FD SO D Hf CF) in R. cbn [app] in R.
    injection R as <- <-. reflexivity. }
  split; [exact E|]. subst n. cbn [app] in I. unfold normalize_utf8. rewrite I, Forall_forall. reflexivity.
Qed.
Lemma piece_expands k g : flat_map full_canonical (piece k g) = isort (flat_map full_canonical g).
Proof.
  assert (X : flat_map full_canonical (isort (flat_map full_canonical g)) = isort (flat_map full_canonical g)).
  { assert (Y : forall l, (forall x, In x l -> full_canonical x = [x]) -> flat_map full_canonical l = l).
    { induction l as [|x l IH]; intros H; [reflexivity|]. cbn [flat_map]. rewrite (H x (or_introl eq_refl)), IH; [reflexivity|]. intros y I. apply H. right. exact I. }
    apply Y. intros x I. apply (Permutation_in _ (Permutation_sym (isort_perm _))) in I. apply in_flat_map in I. destruct I as (c & _ & I).
    exact (full_canonical_fix c x I). }
  unfold piece. destruct k; [rewrite compose_full|]; exact X.
Qed.

(** The output is the text of the form, its codepoints and graphemes read back, exactly if the form is encodable. *)
Theorem C115_read_back : forall F listed sort cs fuel, form_of F listed -> std_sort_ok sort -> Forall unicode_codepoint cs ->
  (length cs < fuel)%nat -> count_fits listed cs ->
  exists u, form_alone F sort cs u /\
    (Forall encodable u ->
     exists s, normalize_utf8 F sort fuel (utf8_text cs) = Ok (zlen u, s) /\
       (forall fuel', (length u < fuel')%nat ->
         iterate_codepoints fuel' (utf8_ops (string_buffer s)) 0 (zlen s) = Ok u /\
         exists gs, graphemes fuel' (utf8_ops (string_buffer s)) 0 (zlen s) = Ok gs /\ segments pairwise_boundary u gs)) /\
    (~ Forall encodable u -> normalize_utf8 F sort fuel (utf8_text cs) <> Ok (zlen u, utf8_text u)).
Proof.
  intros F listed sort cs fuel FO SO U Hf CF. destruct (form_data_of F listed FO) as (k & full & FD).
  assert (D : delimited_text (utf32_ops (string_buffer cs)) 0 (zlen cs) cs) by (eapply delimited_string; constructor).
  pose proof (run_any32 F listed k full sort _ _ _ cs fuel [] FD SO D Hf CF) as R. cbv zeta in R. cbn [app] in R.
  pose proof (run_any32 F listed k full sort _ _ _ cs (S (length cs)) [] FD SO D (Nat.lt_succ_diag_r _) CF) as R1. cbv zeta in R1. cbn [app] in R1.
  set (u := flat_map (norm_grapheme k full sort) (seg cs)) in *. exists u. split; [exact R1|].
  destruct (utf8_run F listed k full sort cs fuel FD SO U Hf CF _ u R) as (_ & I). split.
  - intros EN. exists (utf8_text u). split; [apply I; exact EN|]. intros fuel' Hf'. pose proof (encodable_31 u EN) as E31.
    split; [apply (C01_forward_iteration_string u fuel' E31 Hf')|].
    exact (C39_graphemes_partition_the_text _ _ _ _ _ fuel' (utf8_string u E31) Hf').
  - intros NE Q. apply NE, I, Q.
Qed.
Print Assumptions C115_read_back.

(** Forms D and C: grapheme by grapheme. *)
Theorem C115_graphemes_kept : forall F sort cs gs fuel,
  F = normalization_form_d \/ F = normalization_form_c ->
  std_sort_ok sort -> Forall unicode_codepoint cs -> (length cs < fuel)%nat -> count_fits listed_canonical cs ->
  segments pairwise_boundary cs gs -> ties_kept sort listed_canonical gs -> modifiers_placed cs ->
  (forall u, form_alone F sort cs u -> Forall encodable u) ->
  exists n s hs, normalize_utf8 F sort fuel (utf8_text cs) = Ok (n, s) /\
    (forall fuel', (length s < fuel')%nat -> graphemes fuel' (utf8_ops (string_buffer s)) 0 (zlen s) = Ok hs) /\
    Forall2 (form_alone F sort) gs hs.
Proof.
  intros F sort cs gs fuel FO SO U Hf CF S K M EN.
  assert (D : delimited_text (utf32_ops (string_buffer cs)) 0 (zlen cs) cs) by (eapply delimited_string; constructor).
  destruct (C111_graphemes_kept F sort _ _ _ cs gs fuel [] FO SO D Hf CF S K M) as (u & hs & R & SU & A). cbn [app] in R.
  destruct (C111_graphemes_kept F sort _ _ _ cs gs (Datatypes.S (length cs)) [] FO SO D (Nat.lt_succ_diag_r _) CF S K M) as (u1 & hs1 & R1 & SU1 & _). cbn [app] in R1.
  destruct (canonical_forms F FO) as (k & FD).
  assert (u1 = u).
  { rewrite (run_any32 F _ k _ sort _ _ _ cs _ [] FD SO D Hf CF) in R. rewrite (run_any32 F _ k _ sort _ _ _ cs _ [] FD SO D (Nat.lt_succ_diag_r _) CF) in R1. congruence. }
  subst u1. specialize (EN u R1). pose proof (encodable_31 u EN) as E31.
  destruct (utf8_run F _ k _ sort cs fuel FD SO U Hf CF _ u R) as (_ & I). exists (zlen u), (utf8_text u), hs. split; [apply I; exact EN|]. split; [|exact A].
  intros fuel' Hf'. assert (L : (length u < fuel')%nat).
  { assert (X : (length u <= length (utf8_text u))%nat); [|lia]. clear - E31. unfold utf8_text. induction E31 as [|c u H _ IH]; [cbn; lia|].
    cbn [flat_map length]. rewrite app_length. assert (1 <= length (utf8_encode c))%nat; [|lia]. destruct (utf8_encode c) eqn:Q; [|cbn; lia].
    exfalso. revert Q. unfold utf8_encode. repeat (match goal with |- context [if ?x then _ else _] => destruct x end); discriminate. }
  destruct (C39_graphemes_partition_the_text _ _ _ _ _ fuel' (utf8_string u E31) L) as (gs' & G & SG). apply seg_eq in SG, SU. subst. exact G.
Qed.
Print Assumptions C115_graphemes_kept.

(** Normalizing the output again changes no octet. *)
Theorem C115_idempotent : forall F cs gs fuel n s fuel',
  F = normalization_form_d \/ F = normalization_form_c ->
  Forall unicode_codepoint cs -> (length cs < fuel)%nat -> count_fits listed_canonical cs ->
  segments pairwise_boundary cs gs -> (forall g f, In g gs -> expands_all listed_canonical g f -> (length f <= 16)%nat) -> modifiers_placed cs ->
  (forall u, form_alone F gnu_sort cs u -> Forall encodable u) ->
  normalize_utf8 F gnu_sort fuel (utf8_text cs) = Ok (n, s) -> (length s < fuel')%nat ->
  normalize_utf8 F gnu_sort fuel' s = Ok (n, s).
Proof.
  intros F cs gs fuel n s fuel' FO U Hf CF S L M EN R Hf'. pose proof C58_an_allowed_sort as SO.
  pose proof (C59_short_graphemes listed_canonical gs L) as K.
  assert (D : delimited_text (utf32_ops (string_buffer cs)) 0 (zlen cs) cs) by (eapply delimited_string; constructor).
  destruct (canonical_forms F FO) as (k & FD).
  pose proof (run_any32 F _ k _ gnu_sort _ _ _ cs fuel [] FD SO D Hf CF) as R32. cbv zeta in R32. cbn [app] in R32.
  pose proof (run_any32 F _ k _ gnu_sort _ _ _ cs (Datatypes.S (length cs)) [] FD SO D (Nat.lt_succ_diag_r _) CF) as R1. cbv zeta in R1. cbn [app] in R1.
  set (u := flat_map (norm_grapheme k full_canonical gnu_sort) (seg cs)) in *. specialize (EN u R1). pose proof (encodable_31 u EN) as E31.
  destruct (utf8_run F _ k _ gnu_sort cs fuel FD SO U Hf CF _ u R32) as (_ & I). rewrite (proj2 I EN) in R. injection R as <- <-.
  assert (Lu : (length u < fuel')%nat).
  { assert (X : (length u <= length (utf8_text u))%nat); [|lia]. clear - E31. unfold utf8_text. induction E31 as [|c u H _ IH]; [cbn; lia|].
    cbn [flat_map length]. rewrite app_length. assert (1 <= length (utf8_encode c))%nat; [|lia]. destruct (utf8_encode c) eqn:Q; [|cbn; lia].
    exfalso. revert Q. unfold utf8_encode. repeat (match goal with |- context [if ?x then _ else _] => destruct x end); discriminate. }
  pose proof (C111_idempotent F _ _ _ cs gs fuel _ u fuel' FO D Hf CF S L M R32 Lu) as R2.
  assert (CU : count_fits listed_canonical u).
  { destruct CF as (f & E & Lf). apply canonical_listed in E. subst f. eexists. split; [apply canonical_listed; reflexivity|].
    apply seg_eq in S. subst gs.
    assert (UE : u = concat (map (piece k) (seg cs))).
    { unfold u. rewrite flat_map_concat_map. f_equal. apply map_ext_in. intros g J. apply (kept_piece F); [exact FD|exact SO|].
      apply (K g); [exact J|]. apply canonical_listed. reflexivity. }
    rewrite UE. clear - Lf. rewrite <- (seg_concat cs) in Lf.
    assert (Y : forall gs, length (flat_map full_canonical (concat (map (piece k) gs))) = length (flat_map full_canonical (concat gs))).
    { induction gs as [|g gs IH]; [reflexivity|]. cbn [map concat]. rewrite !flat_map_app, !app_length, IH, piece_expands, isort_length. reflexivity. }
    rewrite Y. exact Lf. }
  destruct (utf8_run F _ k _ gnu_sort u fuel' FD SO (encodable_unicode u EN) Lu CU _ u R2) as (_ & I2). apply I2. exact EN.
Qed.
Print Assumptions C115_idempotent.

(** Two UTF-8 strings are normalized to the same octets exactly if their texts are canonically equivalent. *)
Theorem C115_same_octets_iff_equivalent : forall F sort cs gs cs' gs' fuel,
  F = normalization_form_d \/ F = normalization_form_c ->
  std_sort_ok sort -> Forall unicode_codepoint cs -> Forall unicode_codepoint cs' ->
  (length cs < fuel)%nat -> (length cs' < fuel)%nat -> count_fits listed_canonical cs -> count_fits listed_canonical cs' ->
  segments pairwise_boundary cs gs -> segments pairwise_boundary cs' gs' ->
  ties_kept sort listed_canonical gs -> ties_kept sort listed_canonical gs' ->
  nfd_condition cs gs -> nfd_condition cs' gs' ->
  (forall u, form_alone F sort cs u \/ form_alone F sort cs' u -> Forall encodable u) ->
  exists n s n' s', normalize_utf8 F sort fuel (utf8_text cs) = Ok (n, s) /\ normalize_utf8 F sort fuel (utf8_text cs') = Ok (n', s') /\
    (s = s' <-> canonically_equivalent cs cs').
Proof.
  intros F sort cs gs cs' gs' fuel FO SO U U' Hf Hf' CF CF' S S' K K' N N' EN.
  assert (D : delimited_text (utf32_ops (string_buffer cs)) 0 (zlen cs) cs) by (eapply delimited_string; constructor).
  assert (D' : delimited_text (utf32_ops (string_buffer cs')) 0 (zlen cs') cs') by (eapply delimited_string; constructor).
  destruct (C54_same_form_iff_canonically_equivalent_partial F sort _ _ _ cs gs _ _ _ cs' gs' fuel FO SO D D' Hf Hf' CF CF' S S' K K' N N')
    as (n & u & n' & u' & R & R' & Q).
  destruct (canonical_forms F FO) as (k & FD).
  destruct (utf8_run F _ k _ sort cs fuel FD SO U Hf CF _ u R) as (_ & I). destruct (utf8_run F _ k _ sort cs' fuel FD SO U' Hf' CF' _ u' R') as (_ & I').
  assert (EU : Forall encodable u).
  { apply EN. left. unfold form_alone. rewrite (run_any32 F _ k _ sort _ _ _ cs _ [] FD SO D (Nat.lt_succ_diag_r _) CF).
    rewrite (run_any32 F _ k _ sort _ _ _ cs fuel [] FD SO D Hf CF) in R. cbn [app] in *. injection R as _ <-. reflexivity. }
  assert (EU' : Forall encodable u').
  { apply EN. right. unfold form_alone. rewrite (run_any32 F _ k _ sort _ _ _ cs' _ [] FD SO D' (Nat.lt_succ_diag_r _) CF').
    rewrite (run_any32 F _ k _ sort _ _ _ cs' fuel [] FD SO D' Hf' CF') in R'. cbn [app] in *. injection R' as _ <-. reflexivity. }
  exists (zlen u), (utf8_text u), (zlen u'), (utf8_text u'). split; [apply I; exact EU|]. split; [apply I'; exact EU'|].
  rewrite <- Q. split; [apply text_injective; apply encodable_31; assumption|intros ->; reflexivity].
Qed.
Print Assumptions C115_same_octets_iff_equivalent.

(** E acute, u with both marks in either order, a syllable: through form C and form D and back. *)
Example C115_example : let t := [0xC9; 0x75; 0x302; 0x316; 0xAC01] in let t' := [0x45; 0x301; 0x75; 0x316; 0x302; 0xAC01] in
  Forall encodable [0x45; 0x301; 0x75; 0x316; 0x302; 0xAC01] /\
  normalize_utf8 normalization_form_d gnu_sort 20 (utf8_text t) = Ok (6, utf8_text t') /\
  normalize_utf8 normalization_form_d gnu_sort 20 (utf8_text t') = Ok (6, utf8_text t') /\
  graphemes 20 (utf8_ops (string_buffer (utf8_text t'))) 0 (zlen (utf8_text t')) = Ok [[0x45; 0x301]; [0x75; 0x316; 0x302]; [0xAC01]].
Proof. cbv zeta. split; [repeat constructor; unfold encodable; lia|]. repeat split; vm_compute; reflexivity. Qed.
