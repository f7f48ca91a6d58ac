(** * Properties C85-C87 (and C54 for form C): a second normalization in another form,
      nothing left to compose, the size of form C

    Reading guide as in Properties_Normalize.v. *)
From Coq Require Import Permutation Sorted Relations.
From Verif Require Import Prelude DataTables UcdTables PropsModel Utf8Model TextModel Utf8Spec UnicodeSpec GraphemeSpec TextSpec NormSpec FilterSpec
  PropsProofs LawfulProofs DecompTables DecompProofs GraphemeProofs Uax29Proofs GraphemeText FilterProofs OrderProofs ComposeProofs
  NormData HangulProofs NormProofs NfcProofs NormForms EncodeProofs EncodeText NormUtf8 NormText StdSortModel StdSortProofs
  Properties_Normalize Properties_Sort TextsProofs Properties_Texts FormsProofs.
Require Import ZifyBool ZifyNat.

(** The type of a normalization form of normalization_form_*.hpp as normalize takes it. *)
Definition form : Type := (list Z -> list Z) -> (list Z -> list Z -> res (list Z)) -> nat -> cp_ops -> Z * Z -> list Z -> res (Z * list Z).
(** [then_form F1 l1 F2 l2 F]: applying F1 (with the mappings l1) and then F2 (with l2)
    ought to give what applying F gives (The Unicode Standard 9.0, section 3.11; UAX #15,
    section 1.2: toNFC(toNFD(x)) = toNFC(x), toNFD(toNFKC(x)) = toNFKD(x), ...). *)
Inductive then_form : form -> (Z -> list Z -> Prop) -> form -> (Z -> list Z -> Prop) -> form -> Prop :=
| d_d : then_form normalization_form_d listed_canonical normalization_form_d listed_canonical normalization_form_d
| c_d : then_form normalization_form_c listed_canonical normalization_form_d listed_canonical normalization_form_d
| d_c : then_form normalization_form_d listed_canonical normalization_form_c listed_canonical normalization_form_c
| c_c : then_form normalization_form_c listed_canonical normalization_form_c listed_canonical normalization_form_c
| kd_d : then_form normalization_form_kd listed_compat normalization_form_d listed_canonical normalization_form_kd
| kc_d : then_form normalization_form_kc listed_compat normalization_form_d listed_canonical normalization_form_kd
| kd_c : then_form normalization_form_kd listed_compat normalization_form_c listed_canonical normalization_form_kc
| kc_c : then_form normalization_form_kc listed_compat normalization_form_c listed_canonical normalization_form_kc
| kd_kd : then_form normalization_form_kd listed_compat normalization_form_kd listed_compat normalization_form_kd
| kc_kd : then_form normalization_form_kc listed_compat normalization_form_kd listed_compat normalization_form_kd
| kd_kc : then_form normalization_form_kd listed_compat normalization_form_kc listed_compat normalization_form_kc
| kc_kc : then_form normalization_form_kc listed_compat normalization_form_kc listed_compat normalization_form_kc.

(** ** C85.  False: the text of C51. *)
Theorem C85_second_form_refuted : forall F1 l1 F2 l2 F, then_form F1 l1 F2 l2 F ->
  normalize 5 (utf32_ops [0x61; 0x316; 0x200D; 0x1F3FB; 0])
    (F1 isort utf32_append_from_utf32ne 5%nat (utf32_ops [0x61; 0x316; 0x200D; 0x1F3FB; 0])) 0 4 []
  = Ok (4, [0x61; 0x200D; 0x316; 0x1F3FB]) /\
  normalize 5 (utf32_ops [0x61; 0x200D; 0x316; 0x1F3FB; 0])
    (F2 isort utf32_append_from_utf32ne 5%nat (utf32_ops [0x61; 0x200D; 0x316; 0x1F3FB; 0])) 0 4 []
  = Ok (4, [0x61; 0x200D; 0x1F3FB; 0x316]) /\
  normalize 5 (utf32_ops [0x61; 0x316; 0x200D; 0x1F3FB; 0])
    (F isort utf32_append_from_utf32ne 5%nat (utf32_ops [0x61; 0x316; 0x200D; 0x1F3FB; 0])) 0 4 []
  = Ok (4, [0x61; 0x200D; 0x316; 0x1F3FB]).
Proof. intros F1 l1 F2 l2 F []; repeat split; vm_compute; reflexivity. Qed.
Print Assumptions C85_second_form_refuted.

(** What the proof needs of each of the twelve. *)
Lemma then_data F1 l1 F2 l2 F : then_form F1 l1 F2 l2 F -> exists k1 full1 k2 full2,
  form_data F1 l1 k1 full1 /\ form_data F2 l2 k2 full2 /\ form_data F l1 k2 full1 /\
  (forall c, full1 c <> []) /\ (forall c x t, full1 c = x :: t -> glue x -> joiner c) /\ (forall c, control c -> full1 c = [c]) /\
  (forall c, full2 c <> []) /\ (forall c x t, full2 c = x :: t -> glue x -> joiner c) /\ (forall c, control c -> full2 c = [c]) /\
  (forall c x, In x (full2 c) -> full2 x = [x]) /\ (forall c x, In x (full1 c) -> full2 x = [x]) /\
  (forall l, flat_map full2 (compose l) = flat_map full2 l).
Proof.
  intros []; eexists _, _, _, _; (split; [constructor|]); (split; [constructor|]); (split; [constructor|]);
  first [refine (conj full_canonical_ne (conj canonical_head (conj canonical_control _)))
        |refine (conj full_compat_ne (conj compat_head (conj compat_control _)))];
  first [refine (conj full_canonical_ne (conj canonical_head (conj canonical_control (conj full_canonical_fix _))))
        |refine (conj full_compat_ne (conj compat_head (conj compat_control (conj full_compat_fix _))))];
  first [exact (conj full_canonical_fix canonical_compose)|exact (conj full_compat_fix compat_compose)|exact (conj compat_plain canonical_compose)].
Qed.
Lemma normalized_eq F listed k full sort cs : form_data F listed k full -> std_sort_ok sort -> ties_kept sort listed (seg cs) ->
  flat_map (norm_grapheme k full sort) (seg cs) = if k then form_c_of full cs else form_d_of full cs.
Proof.
  intros FD SO K. pose proof (data_listed _ _ _ _ FD) as LF.
  rewrite <- (d_pieces_eq listed full LF sort SO cs K), <- (c_pieces_eq listed full LF sort SO cs K).
  rewrite !flat_map_concat_map. unfold c_pieces, d_pieces, norm_grapheme. rewrite map_map. destruct k; reflexivity.
Qed.
(** Exactly when it holds: no grapheme of the first output has a starter after a mark in its
    decomposition. *)
Theorem C85_second_form_iff_partial : forall F1 l1 F2 l2 F sort ops b e cs gs fuel n u gs' fuel',
  then_form F1 l1 F2 l2 F -> std_sort_ok sort -> delimited_text ops b e cs -> (length cs < fuel)%nat -> count_fits l1 cs ->
  segments pairwise_boundary cs gs -> ties_kept sort l1 gs ->
  normalize fuel ops (F1 sort utf32_append_from_utf32ne fuel ops) b e [] = Ok (n, u) ->
  segments pairwise_boundary u gs' -> ties_kept sort l2 gs' -> (length u < fuel')%nat ->
  exists n' u' m w,
    normalize fuel' (utf32_ops (string_buffer u)) (F2 sort utf32_append_from_utf32ne fuel' (utf32_ops (string_buffer u))) 0 (zlen u) []
    = Ok (n', u') /\
    normalize fuel ops (F sort utf32_append_from_utf32ne fuel ops) b e [] = Ok (m, w) /\
    (u' = w <-> graphemes_marks_last l2 gs').
Proof.
  intros F1 l1 F2 l2 F sort ops b e cs gs fuel n u gs' fuel' TF SO D Hf CF S K E S' K' Hf'.
  apply seg_eq in S, S'. subst gs gs'.
  destruct (then_data F1 l1 F2 l2 F TF) as (k1 & full1 & k2 & full2 & FD1 & FD2 & FD & A1 & A2 & A3 & B1 & B2 & B3 & B4 & B5 & B6).
  rewrite (run_any32 F1 l1 k1 full1 sort ops b e cs fuel [] FD1 SO D Hf CF) in E. cbn [app] in E. injection E as _ E.
  rewrite (normalized_eq F1 l1 k1 full1 sort cs FD1 SO K) in E.
  assert (U : flat_map full2 u = form_d_of full1 cs).
  { subst u. destruct k1; [apply second_c_fix; assumption|apply second_d_fix; assumption]. }
  assert (CF' : count_fits l2 u).
  { destruct CF as (f & X & L). apply (data_listed _ _ _ _ FD1) in X. subst f.
    eexists. split; [apply (data_listed _ _ _ _ FD2); reflexivity|]. rewrite U.
    rewrite <- (Permutation_length (form_d_perm full1 cs)). assumption. }
  assert (D' : delimited_text (utf32_ops (string_buffer u)) 0 (zlen u) u) by (eapply delimited_string; constructor).
  eexists _, _, _, _. split; [exact (run_any32 F2 l2 k2 full2 sort _ _ _ u fuel' [] FD2 SO D' Hf' CF')|].
  split; [exact (run_any32 F l1 k2 full1 sort ops b e cs fuel [] FD SO D Hf CF)|]. cbn [app].
  rewrite (normalized_eq F2 l2 k2 full2 sort u FD2 SO K'), (normalized_eq F l1 k2 full1 sort cs FD SO K).
  rewrite (marks_last_listed _ _ _ (data_listed _ _ _ _ FD2)).
  destruct k2; [apply second_c_iff|apply second_d_iff]; assumption.
Qed.
Print Assumptions C85_second_form_iff_partial.
(** Form KD after form D or C, KC likewise: where the text itself meets the condition for both
    kinds of mappings. *)
Theorem C85_compatibility_form_later_partial : forall F1 F2 sort ops b e cs gs fuel n u gs' fuel',
  F1 = normalization_form_d \/ F1 = normalization_form_c -> F2 = normalization_form_kd \/ F2 = normalization_form_kc ->
  std_sort_ok sort -> delimited_text ops b e cs -> (length cs < fuel)%nat -> count_fits listed_compat cs ->
  segments pairwise_boundary cs gs -> ties_kept sort listed_canonical gs -> ties_kept sort listed_compat gs ->
  graphemes_marks_last listed_canonical gs -> graphemes_marks_last listed_compat gs ->
  normalize fuel ops (F1 sort utf32_append_from_utf32ne fuel ops) b e [] = Ok (n, u) ->
  segments pairwise_boundary u gs' -> ties_kept sort listed_compat gs' -> (length u < fuel')%nat ->
  exists n' u' m w,
    normalize fuel' (utf32_ops (string_buffer u)) (F2 sort utf32_append_from_utf32ne fuel' (utf32_ops (string_buffer u))) 0 (zlen u) []
    = Ok (n', u') /\
    normalize fuel ops (F2 sort utf32_append_from_utf32ne fuel ops) b e [] = Ok (m, w) /\
    (u' = w <-> graphemes_marks_last listed_compat gs').
Proof.
  intros F1 F2 sort ops b e cs gs fuel n u gs' fuel' H1 H2 SO D Hf CF S K1 K2 M1 M2 E S' K' Hf'.
  apply seg_eq in S, S'. subst gs gs'.
  assert (X1 : exists k1, form_data F1 listed_canonical k1 full_canonical) by (destruct H1 as [->| ->]; eexists; constructor).
  assert (X2 : exists k2, form_data F2 listed_compat k2 full_compat) by (destruct H2 as [->| ->]; eexists; constructor).
  destruct X1 as (k1 & FD1), X2 as (k2 & FD2).
  assert (LE : (length (flat_map full_canonical cs) <= length (flat_map full_compat cs))%nat).
  { rewrite <- (compat_all cs). pose proof (flat_bound full_compat 7 (flat_map full_canonical cs) compat_bound). unfold zlen in *. lia. }
  assert (CF1 : count_fits listed_canonical cs).
  { destruct CF as (f & X & L). apply compat_listed in X. subst f. eexists. split; [apply canonical_listed; reflexivity|lia]. }
  rewrite (run_any32 F1 _ k1 _ sort ops b e cs fuel [] FD1 SO D Hf CF1) in E. cbn [app] in E. injection E as _ E.
  rewrite (normalized_eq F1 _ k1 _ sort cs FD1 SO K1) in E.
  assert (U : flat_map full_compat u = flat_map full_compat (form_d_of full_canonical cs)).
  { subst u. destruct k1; [|reflexivity]. rewrite (form_c_eq _ full_canonical_ne canonical_head canonical_control). apply compat_compose. }
  assert (CF' : count_fits listed_compat u).
  { destruct CF as (f & X & L). apply compat_listed in X. subst f. eexists. split; [apply compat_listed; reflexivity|]. rewrite U.
    assert (P : Permutation (flat_map full_compat (form_d_of full_canonical cs)) (flat_map full_compat cs)).
    { rewrite <- (compat_all cs). apply Permutation_flat_map. symmetry. apply form_d_perm. }
    rewrite (Permutation_length P). assumption. }
  assert (D' : delimited_text (utf32_ops (string_buffer u)) 0 (zlen u) u) by (eapply delimited_string; constructor).
  eexists _, _, _, _. split; [exact (run_any32 F2 _ k2 _ sort _ _ _ u fuel' [] FD2 SO D' Hf' CF')|].
  split; [exact (run_any32 F2 _ k2 _ sort ops b e cs fuel [] FD2 SO D Hf CF)|]. cbn [app].
  rewrite (normalized_eq F2 _ k2 _ sort u FD2 SO K'), (normalized_eq F2 _ k2 _ sort cs FD2 SO K2).
  rewrite (marks_last_listed _ _ (seg cs) compat_listed) in M2. rewrite (marks_last_listed _ _ (seg u) compat_listed). rewrite (marks_last_listed _ _ (seg cs) canonical_listed) in M1.
  rewrite <- (compat_after_canonical cs u (f_equal corder U) M1 M2).
  destruct k2; [|reflexivity]. split; intros Q.
  - rewrite <- (form_c_full _ full_compat_ne compat_head compat_control full_compat_fix compat_compose u), Q.
    apply (form_c_full _ full_compat_ne compat_head compat_control full_compat_fix compat_compose).
  - rewrite !(form_c_eq _ full_compat_ne compat_head compat_control), Q. reflexivity.
Qed.
Print Assumptions C85_compatibility_form_later_partial.
Example C85_example : (* "s" with dot above and dot below, and the ligature fi, through C and then D, KD *)
  let t := [0x73; 0x307; 0x323; 0xFB01] in let u := [0x1E69; 0xFB01] in
  normalize 9 (utf32_ops (string_buffer t)) (normalization_form_c isort utf32_append_from_utf32ne 9 (utf32_ops (string_buffer t))) 0 4 [] = Ok (2, u) /\
  normalize 9 (utf32_ops (string_buffer u)) (normalization_form_d isort utf32_append_from_utf32ne 9 (utf32_ops (string_buffer u))) 0 2 []
  = Ok (4, [0x73; 0x323; 0x307; 0xFB01]) /\
  normalize 9 (utf32_ops (string_buffer u)) (normalization_form_kd isort utf32_append_from_utf32ne 9 (utf32_ops (string_buffer u))) 0 2 []
  = Ok (5, [0x73; 0x323; 0x307; 0x66; 0x69]) /\
  graphemes_marks_last listed_canonical [[0x73; 0x307; 0x323]; [0xFB01]] /\ graphemes_marks_last listed_compat [[0x1E69]; [0xFB01]].
Proof.
  assert (X : forall (full : Z -> list Z) l, isort (flat_map full l) = corder (flat_map full l) -> marks_last (flat_map full l)).
  { intros full l E. apply marks_last_iff, sort_is_order_iff. exact E. }
  cbv zeta. repeat (split; [vm_compute; reflexivity|]). split.
  - apply (marks_last_listed _ _ _ canonical_listed). intros g [<-|[<-|[]]]; apply X; vm_compute; reflexivity.
  - apply (marks_last_listed _ _ _ compat_listed). intros g [<-|[<-|[]]]; apply X; vm_compute; reflexivity.
Qed.

(** ** C86.  False for graphemes of more than 16 codepoints: libstdc++'s std::sort moves the
    vowel signs in front of their letter, next to the sign U+09C7 before it, and U+09C7 U+09BE
    has the composite U+09CB. *)
Theorem C86_long_grapheme_refuted :
  let t := [0x9C7; 0x995] ++ repeat 0x9BE 16 in
  normalize 30 (utf32_ops (t ++ [0])) (normalization_form_c gnu_sort utf32_append_from_utf32ne 30 (utf32_ops (t ++ [0]))) 0 18 []
  = Ok (18, [0x9C7; 0x9BE] ++ repeat 0x9BE 8 ++ [0x995] ++ repeat 0x9BE 7) /\
  primary_composite 0x9C7 0x9BE 0x9CB.
Proof. cbv zeta. split; [vm_compute; reflexivity|]. apply comp_spec. vm_compute. reflexivity. Qed.
Print Assumptions C86_long_grapheme_refuted.
(** True where the sort keeps the order of equal classes (C59: always up to 16 codepoints):
    form C (KC) leaves no neighbours that compose, not even across graphemes, and
    canonical_composition over the whole output changes nothing. *)
Theorem C86_nothing_left_to_compose_partial : forall F listed sort ops b e cs gs fuel count,
  F = normalization_form_c /\ listed = listed_canonical \/ F = normalization_form_kc /\ listed = listed_compat ->
  std_sort_ok sort -> delimited_text ops b e cs -> (length cs < fuel)%nat -> count_fits listed cs ->
  segments pairwise_boundary cs gs -> ties_kept sort listed gs ->
  exists n u, normalize fuel ops (F sort utf32_append_from_utf32ne fuel ops) b e [] = Ok (n, u) /\
    (forall l x y r z, u = l ++ x :: y :: r -> ~ primary_composite x y z) /\
    canonical_composition u count = Ok (u, zlen u, count).
Proof.
  intros F listed sort ops b e cs gs fuel count H SO D Hf CF S K. apply seg_eq in S. subst gs.
  assert (X : exists full, form_data F listed true full /\ form_c_of full cs = compose (form_d_of full cs)).
  { destruct H as [[-> ->]|[-> ->]]; eexists; (split; [constructor|]).
    - apply (form_c_eq _ full_canonical_ne canonical_head canonical_control).
    - apply (form_c_eq _ full_compat_ne compat_head compat_control). }
  destruct X as (full & FD & Q). eexists _, _. split; [exact (run_any32 F listed true full sort ops b e cs fuel [] FD SO D Hf CF)|].
  cbn [app]. rewrite (normalized_eq F listed true full sort cs FD SO K), Q. set (l := form_d_of full cs). clearbody l. split.
  - intros p x y r z E P. apply comp_spec in P. rewrite (compose_adjacent l p x y r E) in P. discriminate.
  - destruct (canonical_composition_ok (compose l) count) as (rest & E & L). rewrite compose_twice in E, L. rewrite E.
    assert (rest = []) by (rewrite app_length in L; apply length_zero_iff_nil; lia). subst rest. rewrite app_nil_r. do 2 f_equal. lia.
Qed.
Print Assumptions C86_nothing_left_to_compose_partial.
Example C86_example : (* s, dot above, dot below: one composite; canonical_composition leaves it *)
  normalize 5 (utf32_ops [0x73; 0x307; 0x323; 0x41; 0])
    (normalization_form_c isort utf32_append_from_utf32ne 5 (utf32_ops [0x73; 0x307; 0x323; 0x41; 0])) 0 4 [] = Ok (2, [0x1E69; 0x41]) /\
  canonical_composition [0x1E69; 0x41] 3 = Ok ([0x1E69; 0x41], 2, 3) /\
  canonical_composition [0x73; 0x323; 0x307; 0x41] 3 = Ok ([0x1E69; 0x41; 0x1E69; 0x41], 2, 5).
Proof. repeat split; vm_compute; reflexivity. Qed.

(** ** C87.  Form C is at most three times as long as the text (the bound of UAX #15; form D
    can be four times as long: C62). *)
Theorem C87_form_c_at_most_three_times : forall sort ops b e cs gs fuel out,
  std_sort_ok sort -> delimited_text ops b e cs -> (length cs < fuel)%nat -> count_fits listed_canonical cs ->
  segments pairwise_boundary cs gs -> ties_kept sort listed_canonical gs ->
  exists u, normalize fuel ops (normalization_form_c sort utf32_append_from_utf32ne fuel ops) b e out = Ok (zlen u, out ++ u) /\
    zlen u <= 3 * zlen cs.
Proof.
  intros sort ops b e cs gs fuel out SO D Hf CF S K. apply seg_eq in S. subst gs.
  eexists. split; [exact (run_any32 _ _ _ _ sort ops b e cs fuel out fd_c SO D Hf CF)|].
  rewrite (normalized_eq _ _ _ _ sort cs fd_c SO K). pose proof (form_c_thrice cs). unfold zlen. lia.
Qed.
Print Assumptions C87_form_c_at_most_three_times.
Example C87_example : (* attained: the musical symbol U+1D160 *)
  normalize 4 (utf32_ops [0x1D160; 0]) (normalization_form_c isort utf32_append_from_utf32ne 4 (utf32_ops [0x1D160; 0])) 0 1 []
  = Ok (3, [0x1D158; 0x1D165; 0x1D16E]).
Proof. vm_compute. reflexivity. Qed.

(** ** C54 for form C *)
Theorem C54_equivalent_texts_form_c_partial : forall sort ops b e cs gs ops' b' e' cs' gs' fuel,
  std_sort_ok sort -> delimited_text ops b e cs -> delimited_text ops' b' e' cs' ->
  (length cs < fuel)%nat -> (length cs' < fuel)%nat -> count_fits listed_canonical cs -> count_fits listed_canonical cs' ->
  segments pairwise_boundary cs gs -> segments pairwise_boundary cs' gs' ->
  ties_kept sort listed_canonical gs -> ties_kept sort listed_canonical gs' ->
  canonically_equivalent cs cs' -> nfd_condition cs gs ->
  exists n u n' u',
    normalize fuel ops (normalization_form_c sort utf32_append_from_utf32ne fuel ops) b e [] = Ok (n, u) /\
    normalize fuel ops' (normalization_form_c sort utf32_append_from_utf32ne fuel ops') b' e' [] = Ok (n', u') /\
    (u = u' <-> nfd_condition cs' gs').
Proof.
  intros sort ops b e cs gs ops' b' e' cs' gs' fuel SO D D' Hf Hf' CF CF' S S' K K' EQ N.
  destruct (C54_equivalent_texts_partial sort ops b e cs gs ops' b' e' cs' gs' fuel SO D D' Hf Hf' CF CF' S S' K K' EQ N)
    as (n & d & n' & d' & E & E' & I).
  destruct (C64_same_form_c_iff_same_form_d listed_canonical normalization_form_d normalization_form_c sort ops b e cs gs ops' b' e' cs' gs' fuel
    (or_introl (conj eq_refl eq_refl)) SO D D' Hf Hf' CF CF' S S' K K') as (n1 & d1 & m & u & n1' & d1' & m' & u' & Q1 & Q2 & Q3 & Q4 & J).
  rewrite E in Q1. injection Q1 as <- <-. rewrite E' in Q3. injection Q3 as <- <-.
  exists m, u, m', u'. split; [assumption|]. split; [assumption|]. rewrite J. exact I.
Qed.
Print Assumptions C54_equivalent_texts_form_c_partial.
