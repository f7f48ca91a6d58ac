(** * Property C97 (and C54 as an equivalence): comparing texts by their normalization forms

    Reading guide as in Properties_Normalize.v.  [equivalent_by listed] (NormSpec.v): one text can
    be made from the other by replacing codepoints by their mappings and back, and by exchanging
    reorderable pairs of marks. *)
From Coq Require Import Permutation Sorted Relations.
From Verif Require Import Prelude DataTables UcdTables PropsModel Utf8Model TextModel Utf8Spec UnicodeSpec GraphemeSpec TextSpec NormSpec FilterSpec
  PropsProofs LawfulProofs DecompTables DecompProofs GraphemeProofs Uax29Proofs GraphemeText FilterProofs OrderProofs ComposeProofs
  NormData HangulProofs NormProofs NfcProofs NormForms EncodeProofs EncodeText NormUtf8 NormText StdSortModel StdSortProofs
  Properties_Normalize Properties_Sort TextsProofs Properties_Texts FormsProofs EquivProofs Properties_Forms.
Require Import ZifyBool ZifyNat.

Lemma both_runs F listed sort ops b e cs ops' b' e' cs' fuel : form_of F listed ->
  std_sort_ok sort -> delimited_text ops b e cs -> delimited_text ops' b' e' cs' ->
  (length cs < fuel)%nat -> (length cs' < fuel)%nat -> count_fits listed cs -> count_fits listed cs' ->
  ties_kept sort listed (seg cs) -> ties_kept sort listed (seg cs') ->
  exists k full n u n' u', form_data F listed k full /\
    normalize fuel ops (F sort utf32_append_from_utf32ne fuel ops) b e [] = Ok (n, u) /\
    normalize fuel ops' (F sort utf32_append_from_utf32ne fuel ops') b' e' [] = Ok (n', u') /\
    (u = u' <-> form_d_of full cs = form_d_of full cs').
Proof.
  intros FO SO D D' Hf Hf' CF CF' K K'. destruct (form_data_of _ _ FO) as (k & full & FD).
  exists k, full. eexists _, _, _, _. split; [exact FD|].
  split; [exact (run_any32 F listed k full sort ops b e cs fuel [] FD SO D Hf CF)|].
  split; [exact (run_any32 F listed k full sort ops' b' e' cs' fuel [] FD SO D' Hf' CF')|]. cbn [app].
  rewrite (normalized_eq _ _ _ _ _ _ FD SO K), (normalized_eq _ _ _ _ _ _ FD SO K'). exact (data_forms_eq _ _ _ _ FD cs cs').
Qed.

(** ** C97.  Two texts in whose graphemes (decomposed) no starter follows a mark have the same form
    exactly if they are equivalent by the mappings the form applies. *)
Theorem C97_same_form_iff_equivalent : forall F listed sort ops b e cs gs ops' b' e' cs' gs' fuel, form_of F listed ->
  std_sort_ok sort -> delimited_text ops b e cs -> delimited_text ops' b' e' cs' ->
  (length cs < fuel)%nat -> (length cs' < fuel)%nat -> count_fits listed cs -> count_fits listed cs' ->
  segments pairwise_boundary cs gs -> segments pairwise_boundary cs' gs' ->
  ties_kept sort listed gs -> ties_kept sort listed gs' ->
  graphemes_marks_last listed gs -> graphemes_marks_last listed gs' ->
  exists n u n' u',
    normalize fuel ops (F sort utf32_append_from_utf32ne fuel ops) b e [] = Ok (n, u) /\
    normalize fuel ops' (F sort utf32_append_from_utf32ne fuel ops') b' e' [] = Ok (n', u') /\
    (u = u' <-> equivalent_by listed cs cs').
Proof.
  intros F listed sort ops b e cs gs ops' b' e' cs' gs' fuel FO SO D D' Hf Hf' CF CF' S S' K K' M M'. apply seg_eq in S, S'. subst gs gs'.
  destruct (both_runs F listed sort ops b e cs ops' b' e' cs' fuel FO SO D D' Hf Hf' CF CF' K K') as (k & full & n & u & n' & u' & FD & E & E' & I).
  exists n, u, n', u'. split; [exact E|]. split; [exact E'|]. rewrite I, (data_by _ _ _ _ FD).
  rewrite (proj2 (data_ordered _ _ _ _ FD cs) M), (proj2 (data_ordered _ _ _ _ FD cs') M'). reflexivity.
Qed.
Print Assumptions C97_same_form_iff_equivalent.
(** If two texts are equivalent and one of them is of that kind, their forms are the same exactly if
    the other is of that kind too. *)
Theorem C97_equivalent_texts_same_form_iff : forall F listed sort ops b e cs gs ops' b' e' cs' gs' fuel, form_of F listed ->
  std_sort_ok sort -> delimited_text ops b e cs -> delimited_text ops' b' e' cs' ->
  (length cs < fuel)%nat -> (length cs' < fuel)%nat -> count_fits listed cs -> count_fits listed cs' ->
  segments pairwise_boundary cs gs -> segments pairwise_boundary cs' gs' ->
  ties_kept sort listed gs -> ties_kept sort listed gs' ->
  equivalent_by listed cs cs' -> graphemes_marks_last listed gs ->
  exists n u n' u',
    normalize fuel ops (F sort utf32_append_from_utf32ne fuel ops) b e [] = Ok (n, u) /\
    normalize fuel ops' (F sort utf32_append_from_utf32ne fuel ops') b' e' [] = Ok (n', u') /\
    (u = u' <-> graphemes_marks_last listed gs').
Proof.
  intros F listed sort ops b e cs gs ops' b' e' cs' gs' fuel FO SO D D' Hf Hf' CF CF' S S' K K' Q M. apply seg_eq in S, S'. subst gs gs'.
  destruct (both_runs F listed sort ops b e cs ops' b' e' cs' fuel FO SO D D' Hf Hf' CF CF' K K') as (k & full & n & u & n' & u' & FD & E & E' & I).
  exists n, u, n', u'. split; [exact E|]. split; [exact E'|]. rewrite I. apply (data_by _ _ _ _ FD) in Q.
  rewrite (proj2 (data_ordered _ _ _ _ FD cs) M), Q, <- (data_ordered _ _ _ _ FD cs'). split; intros X; symmetry; exact X.
Qed.
Print Assumptions C97_equivalent_texts_same_form_iff.
(** The mappings of form D and C: equivalence by them is canonical equivalence, but for the Hangul
    syllables. *)
Theorem C97_equivalent_without_hangul : forall cs cs',
  (equivalent_by listed_canonical cs cs' -> canonically_equivalent cs cs') /\
  ((forall s, In s cs \/ In s cs' -> ~ hangul_syllable s) -> canonically_equivalent cs cs' -> equivalent_by listed_canonical cs cs').
Proof. intros cs cs'. split; [apply by_canonical|]. intros N. apply (by_canonical_iff cs cs' N). Qed.
Print Assumptions C97_equivalent_without_hangul.

(** ** C54 as an equivalence: without Hangul syllables, two texts have the same form D, and the same
    form C, exactly if they are canonically equivalent. *)
Theorem C54_same_form_iff_canonically_equivalent_partial : forall F sort ops b e cs gs ops' b' e' cs' gs' fuel,
  F = normalization_form_d \/ F = normalization_form_c ->
  std_sort_ok sort -> delimited_text ops b e cs -> delimited_text ops' b' e' cs' ->
  (length cs < fuel)%nat -> (length cs' < fuel)%nat -> count_fits listed_canonical cs -> count_fits listed_canonical cs' ->
  segments pairwise_boundary cs gs -> segments pairwise_boundary cs' gs' ->
  ties_kept sort listed_canonical gs -> ties_kept sort listed_canonical gs' ->
  nfd_condition cs gs -> nfd_condition cs' gs' ->
  exists n u n' u',
    normalize fuel ops (F sort utf32_append_from_utf32ne fuel ops) b e [] = Ok (n, u) /\
    normalize fuel ops' (F sort utf32_append_from_utf32ne fuel ops') b' e' [] = Ok (n', u') /\
    (u = u' <-> canonically_equivalent cs cs').
Proof.
  intros F sort ops b e cs gs ops' b' e' cs' gs' fuel FO SO D D' Hf Hf' CF CF' S S' K K' [H M] [H' M'].
  assert (FO' : form_of F listed_canonical) by (destruct FO as [-> | ->]; constructor).
  destruct (C97_same_form_iff_equivalent F listed_canonical sort ops b e cs gs ops' b' e' cs' gs' fuel FO' SO D D' Hf Hf' CF CF' S S' K K' M M')
    as (n & u & n' & u' & E & E' & I).
  exists n, u, n', u'. split; [exact E|]. split; [exact E'|]. rewrite I. symmetry. apply by_canonical_iff.
  intros s [A|A]; [exact (H s A)|exact (H' s A)].
Qed.
Print Assumptions C54_same_form_iff_canonically_equivalent_partial.

Example C97_example : (* U+01C4 is "D", "Z", caron under KC, not under C *)
  let kc t := normalize 8 (utf32_ops (t ++ [0])) (normalization_form_kc isort utf32_append_from_utf32ne 8 (utf32_ops (t ++ [0]))) 0 (zlen t) [] in
  let c t := normalize 8 (utf32_ops (t ++ [0])) (normalization_form_c isort utf32_append_from_utf32ne 8 (utf32_ops (t ++ [0]))) 0 (zlen t) [] in
  equivalent_by listed_compat [0x1C4] [0x44; 0x5A; 0x30C] /\
  kc [0x1C4] = Ok (2, [0x44; 0x17D]) /\ kc [0x44; 0x5A; 0x30C] = Ok (2, [0x44; 0x17D]) /\
  ~ equivalent_by listed_canonical [0x1C4] [0x44; 0x5A; 0x30C] /\
  c [0x1C4] = Ok (1, [0x1C4]) /\ c [0x44; 0x5A; 0x30C] = Ok (2, [0x44; 0x17D]) /\
  graphemes_marks_last listed_compat [[0x1C4]] /\ graphemes_marks_last listed_compat [[0x44]; [0x5A; 0x30C]].
Proof.
  cbv zeta.
  split; [apply (data_by _ _ _ _ fd_kd); vm_compute; reflexivity|].
  split; [vm_compute; reflexivity|]. split; [vm_compute; reflexivity|].
  split; [intros E; apply (data_by _ _ _ _ fd_d) in E; vm_compute in E; discriminate|].
  split; [vm_compute; reflexivity|]. split; [vm_compute; reflexivity|].
  assert (X : forall l, isort (flat_map full_compat l) = corder (flat_map full_compat l) -> forall f, expands_all listed_compat l f -> marks_last f).
  { intros l E f H. apply compat_listed in H. subst f. apply marks_last_iff, sort_is_order_iff. exact E. }
  split; intros g f I; [destruct I as [<-|[]]|destruct I as [<-|[<-|[]]]]; apply X; vm_compute; reflexivity.
Qed.
