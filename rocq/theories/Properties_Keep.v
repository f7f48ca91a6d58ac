(** * Properties C111, C112: normalization and canonical equivalence keep the graphemes of a text

    [segments] (GraphemeSpec.v): the division of a text into graphemes; [pairwise_boundary]: the
    library's rules (C37); [expands_all] (UnicodeSpec.v): full expansion; [ties_kept]
    (NormSpec.v): the sort keeps the order of equal classes (C59: libstdc++'s does in graphemes
    that expand to at most 16 codepoints); [then_form] (Properties_Forms.v): one form after
    another (C85). *)
From Coq Require Import Permutation Sorted Relations.
From Verif Require Import Prelude DataTables UcdTables PropsModel Utf8Model TextModel StdSortModel Utf8Spec UnicodeSpec GraphemeSpec TextSpec NormSpec
  PropsProofs DecompTables DecompProofs GraphemeProofs Uax29Proofs GraphemeText OrderProofs ComposeProofs NormData NormProofs HangulProofs NfcProofs NormText
  TextsProofs EquivProofs LocalMarks FormsProofs NormForms SubRange RangeTree KeepGraphemes EquivGraphemes
  Properties_Graphemes Properties_Normalize Properties_Sort Properties_Texts Properties_Forms.
Require Import ZifyBool ZifyNat.

(** Before an emoji modifier (E_Modifier) stands nothing, or a codepoint that is no ZWJ, no
    Glue_After_Zwj, no emoji modifier, and whose full decomposition has no Extend and no
    SpacingMark in it (so that it is none of these itself). *)
Definition modifiers_placed (cs : list Z) : Prop := forall x a m y, cs = x ++ a :: m :: y -> has_gcb m G_E_MODIFIER ->
  ~ has_gcb a G_ZWJ /\ ~ has_gcb a G_GLUE_AFTER_ZWJ /\ ~ has_gcb a G_E_MODIFIER /\
  forall d z, expands_all listed_canonical [a] d -> In z d -> ~ has_gcb z G_EXTEND /\ ~ has_gcb z G_SPACINGMARK.
(** The form [F] of the text [g], alone in a string, is [h]. *)
Definition form_alone F (sort : list Z -> list Z) (g h : list Z) : Prop :=
  normalize (S (length g)) (utf32_ops (string_buffer g))
    (F sort utf32_append_from_utf32ne (S (length g)) (utf32_ops (string_buffer g))) 0 (zlen g) [] = Ok (zlen h, h).

Lemma placed_md cs : modifiers_placed cs -> adj md cs.
Proof.
  intros H. apply adj_iff. intros x a b y E V. apply gcb_spec in V. destruct (H x a b y E V) as (A & B & C & D).
  split; [intros Q; apply A, gcb_spec; exact Q|]. split; [intros Q; apply B, gcb_spec; exact Q|]. split; [intros Q; apply C, gcb_spec; exact Q|].
  apply (proj2 (Forall_forall _ _)). intros z I.
  assert (X : expands_all listed_canonical [a] (full_canonical a)) by (apply canonical_listed; cbn [flat_map]; rewrite app_nil_r; reflexivity).
  destruct (D _ z X I) as (P & Q). destruct (gcb_of z) eqn:V'; try reflexivity; exfalso; [apply P|apply Q]; apply gcb_spec; exact V'.
Qed.
Lemma kept_piece F k sort g : form_data F listed_canonical k full_canonical -> std_sort_ok sort ->
  order_kept (flat_map full_canonical g) (sort (flat_map full_canonical g)) -> norm_grapheme k full_canonical sort g = piece k g.
Proof.
  intros FD SO K. unfold norm_grapheme, piece. rewrite (sort_kept_eq sort _ SO K). reflexivity.
Qed.
Lemma fits_part gs g : count_fits listed_canonical (concat gs) -> In g gs -> count_fits listed_canonical g.
Proof.
  intros (f & E & L) I. apply canonical_listed in E. subst f. exists (flat_map full_canonical g). split; [apply canonical_listed; reflexivity|].
  apply in_split in I. destruct I as (l & r & ->). rewrite concat_app in L. cbn [concat] in L. rewrite !flat_map_app, !app_length in L. lia.
Qed.
Lemma alone F k sort cs g : form_data F listed_canonical k full_canonical -> std_sort_ok sort -> count_fits listed_canonical cs -> In g (seg cs) ->
  order_kept (flat_map full_canonical g) (sort (flat_map full_canonical g)) -> form_alone F sort g (piece k g).
Proof.
  intros FD SO CF I K. unfold form_alone.
  assert (D : delimited_text (utf32_ops (string_buffer g)) 0 (zlen g) g) by (eapply delimited_string; constructor).
  rewrite (run_any32 F listed_canonical k full_canonical sort _ _ _ g (S (length g)) [] FD SO D (Nat.lt_succ_diag_r _)).
  - assert (S : seg g = [g]).
    { apply seg_one; [exact (proj1 (Forall_forall _ _) (seg_nonempty cs) g I)|]. apply adj_iff. intros x a b y E. exact (seg_inside cs g x a b y I E). }
    rewrite S. cbn [flat_map app]. rewrite app_nil_r, (kept_piece F k sort g FD SO K). reflexivity.
  - apply (fits_part (seg cs)); [rewrite seg_concat; exact CF|exact I].
Qed.
Lemma canonical_forms F : F = normalization_form_d \/ F = normalization_form_c -> exists k, form_data F listed_canonical k full_canonical.
Proof. intros [->| ->]; eexists; constructor. Qed.

(** ** C111.  The graphemes of the output are the forms of the graphemes of the input, one to one. *)
Theorem C111_graphemes_kept : forall F sort ops b e cs gs fuel out,
  F = normalization_form_d \/ F = normalization_form_c ->
  std_sort_ok sort -> delimited_text ops b e cs -> (length cs < fuel)%nat -> count_fits listed_canonical cs ->
  segments pairwise_boundary cs gs -> ties_kept sort listed_canonical gs -> modifiers_placed cs ->
  exists u hs, normalize fuel ops (F sort utf32_append_from_utf32ne fuel ops) b e out = Ok (zlen u, out ++ u) /\
    segments pairwise_boundary u hs /\ Forall2 (form_alone F sort) gs hs.
Proof.
  intros F sort ops b e cs gs fuel out FO SO D Hf CF S K M. apply seg_eq in S. subst gs.
  destruct (canonical_forms F FO) as (k & FD).
  assert (KE : forall g, In g (seg cs) -> order_kept (flat_map full_canonical g) (sort (flat_map full_canonical g))).
  { intros g I. apply (K g); [exact I|]. apply canonical_listed. reflexivity. }
  exists (flat_map (norm_grapheme k full_canonical sort) (seg cs)), (map (piece k) (seg cs)).
  split; [exact (run_any32 F listed_canonical k full_canonical sort ops b e cs fuel out FD SO D Hf CF)|].
  assert (E : flat_map (norm_grapheme k full_canonical sort) (seg cs) = concat (map (piece k) (seg cs))).
  { rewrite flat_map_concat_map. f_equal. apply map_ext_in. intros g I. apply (kept_piece F); auto. }
  rewrite E. split.
  - pose proof (seg_segments (concat (map (piece k) (seg cs)))) as X. rewrite (kept k cs (placed_md cs M)) in X. exact X.
  - assert (Q : forall l, incl l (seg cs) -> Forall2 (form_alone F sort) l (map (piece k) l)).
    { induction l as [|g l IH]; intros J; [constructor|]. cbn [map]. constructor; [|apply IH; intros z Z; apply J; right; exact Z].
      apply (alone F k sort cs); [exact FD|exact SO|exact CF|apply J; left; reflexivity|]. apply KE. apply J. left. reflexivity. }
    apply Q. apply incl_refl.
Qed.
Print Assumptions C111_graphemes_kept.
Corollary C111_as_many_graphemes : forall F sort ops b e cs gs fuel n u hs,
  F = normalization_form_d \/ F = normalization_form_c ->
  std_sort_ok sort -> delimited_text ops b e cs -> (length cs < fuel)%nat -> count_fits listed_canonical cs ->
  segments pairwise_boundary cs gs -> ties_kept sort listed_canonical gs -> modifiers_placed cs ->
  normalize fuel ops (F sort utf32_append_from_utf32ne fuel ops) b e [] = Ok (n, u) ->
  segments pairwise_boundary u hs -> length hs = length gs.
Proof.
  intros F sort ops b e cs gs fuel n u hs FO SO D Hf CF S K M R S'.
  destruct (C111_graphemes_kept F sort ops b e cs gs fuel [] FO SO D Hf CF S K M) as (u0 & hs0 & R0 & S0 & A).
  rewrite R in R0. cbn [app] in R0. injection R0 as _ ->. apply seg_eq in S', S0. subst. clear - A. induction A as [|g h l r _ _ IH]; [reflexivity|]. cbn [length]. f_equal. exact IH.
Qed.
Print Assumptions C111_as_many_graphemes.
(** A second form (D or C) gives what it gives of the text itself: no condition on the output.
    Short graphemes, so that libstdc++'s sort keeps ties (C59). *)
Theorem C111_second_form : forall F1 F2 ops b e cs gs fuel n u fuel',
  F1 = normalization_form_d \/ F1 = normalization_form_c -> F2 = normalization_form_d \/ F2 = normalization_form_c ->
  delimited_text ops b e cs -> (length cs < fuel)%nat -> count_fits listed_canonical cs ->
  segments pairwise_boundary cs gs -> (forall g f, In g gs -> expands_all listed_canonical g f -> (length f <= 16)%nat) -> modifiers_placed cs ->
  normalize fuel ops (F1 gnu_sort utf32_append_from_utf32ne fuel ops) b e [] = Ok (n, u) -> (length u < fuel')%nat ->
  exists w,
    normalize fuel' (utf32_ops (string_buffer u)) (F2 gnu_sort utf32_append_from_utf32ne fuel' (utf32_ops (string_buffer u))) 0 (zlen u) []
    = Ok (zlen w, w) /\
    normalize fuel ops (F2 gnu_sort utf32_append_from_utf32ne fuel ops) b e [] = Ok (zlen w, w).
Proof.
  intros F1 F2 ops b e cs gs fuel n u fuel' FO1 FO2 D Hf CF S L M R Hf'.
  pose proof C58_an_allowed_sort as SO. pose proof (C59_short_graphemes listed_canonical gs L) as K.
  assert (TF : then_form F1 listed_canonical F2 listed_canonical F2) by (destruct FO1 as [->| ->], FO2 as [->| ->]; constructor).
  destruct (canonical_forms F1 FO1) as (k1 & FD1). destruct (canonical_forms F2 FO2) as (k2 & FD2).
  pose proof S as S0. apply seg_eq in S0. subst gs.
  assert (U : u = concat (map (piece k1) (seg cs))).
  { rewrite (run_any32 F1 _ k1 _ gnu_sort ops b e cs fuel [] FD1 SO D Hf CF) in R. cbn [app] in R. injection R as _ <-.
    rewrite flat_map_concat_map. f_equal. apply map_ext_in. intros g I. apply (kept_piece F1); [assumption|assumption|].
    apply (K g); [exact I|]. apply canonical_listed. reflexivity. }
  assert (SU : segments pairwise_boundary u (map (piece k1) (seg cs))).
  { pose proof (seg_segments u) as X. rewrite U in X at 2. rewrite (kept k1 cs (placed_md cs M)) in X. exact X. }
  assert (PF : forall g, flat_map full_canonical (piece k1 g) = isort (flat_map full_canonical g)).
  { intros g. assert (X : flat_map full_canonical (isort (flat_map full_canonical g)) = isort (flat_map full_canonical g)).
    { assert (Y : forall l, (forall x, In x l -> full_canonical x = [x]) -> flat_map full_canonical l = l).
      { induction l as [|x l IH]; intros H; [reflexivity|]. cbn [flat_map]. rewrite (H x (or_introl eq_refl)), IH; [reflexivity|]. intros y I. apply H. right. exact I. }
      apply Y. intros x I. apply (Permutation_in _ (Permutation_sym (isort_perm _))) in I. apply in_flat_map in I. destruct I as (c & _ & I).
      exact (full_canonical_fix c x I). }
    unfold piece. destruct k1; [rewrite compose_full|]; exact X. }
  assert (K' : ties_kept gnu_sort listed_canonical (map (piece k1) (seg cs))).
  { apply C59_short_graphemes. intros h f I E. apply in_map_iff in I. destruct I as (g & <- & I). apply canonical_listed in E. subst f.
    rewrite PF, isort_length. apply (L g); [exact I|]. apply canonical_listed. reflexivity. }
  destruct (C85_second_form_iff_partial F1 _ F2 _ F2 gnu_sort ops b e cs (seg cs) fuel n u _ fuel' TF SO D Hf CF S K R SU K' Hf')
    as (n' & u' & m & w & R1 & R2 & Q).
  assert (X : u' = w).
  { apply Q. intros h f I E. apply in_map_iff in I. destruct I as (g & <- & I). apply canonical_listed in E. subst f. rewrite PF.
    apply marks_last_iff. rewrite isort_split. intros x a y c z E A Z.
    assert (SS := isort_sorted (flat_map full_canonical g)). rewrite isort_split, E in SS.
    clear - SS A Z. induction x as [|d x IH]; cbn [app] in SS; [|apply IH; inversion SS; assumption].
    inversion SS as [|? ? _ F]; subst. rewrite Forall_forall in F. assert (I : In c (y ++ c :: z)) by (apply in_or_app; right; left; reflexivity).
    specialize (F c I). apply ccc_le_iff in F. pose proof (ccc_nonneg a). lia. }
  assert (Z : forall F0 k ops0 b0 e0 cs0 fuel0, form_data F0 listed_canonical k full_canonical -> delimited_text ops0 b0 e0 cs0 ->
    (length cs0 < fuel0)%nat -> count_fits listed_canonical cs0 -> forall n0 u0,
    normalize fuel0 ops0 (F0 gnu_sort utf32_append_from_utf32ne fuel0 ops0) b0 e0 [] = Ok (n0, u0) -> n0 = zlen u0).
  { intros F0 k ops0 b0 e0 cs0 fuel0 FD0 D0 H0 C0 n0 u0 R0.
    rewrite (run_any32 F0 _ k _ gnu_sort ops0 b0 e0 cs0 fuel0 [] FD0 SO D0 H0 C0) in R0. cbn [app] in R0. injection R0 as <- <-. reflexivity. }
  subst w. exists u'. rewrite R1, R2. split; f_equal; f_equal.
  - apply (Z F2 k2 (utf32_ops (string_buffer u)) 0 (zlen u) u fuel'); try assumption; [eapply delimited_string; constructor|].
    destruct CF as (f & E & Lf). apply canonical_listed in E. subst f. eexists. split; [apply canonical_listed; reflexivity|].
    rewrite U. clear - PF Lf. rewrite <- (seg_concat cs) in Lf.
    assert (Y : forall gs, length (flat_map full_canonical (concat (map (piece k1) gs))) = length (flat_map full_canonical (concat gs))).
    { induction gs as [|g gs IH]; [reflexivity|]. cbn [map concat]. rewrite !flat_map_app, !app_length, IH, PF, isort_length. reflexivity. }
    rewrite Y. exact Lf.
  - apply (Z F2 k2 ops b e cs fuel); assumption.
Qed.
Print Assumptions C111_second_form.
Corollary C111_idempotent : forall F ops b e cs gs fuel n u fuel',
  F = normalization_form_d \/ F = normalization_form_c ->
  delimited_text ops b e cs -> (length cs < fuel)%nat -> count_fits listed_canonical cs ->
  segments pairwise_boundary cs gs -> (forall g f, In g gs -> expands_all listed_canonical g f -> (length f <= 16)%nat) -> modifiers_placed cs ->
  normalize fuel ops (F gnu_sort utf32_append_from_utf32ne fuel ops) b e [] = Ok (n, u) -> (length u < fuel')%nat ->
  normalize fuel' (utf32_ops (string_buffer u)) (F gnu_sort utf32_append_from_utf32ne fuel' (utf32_ops (string_buffer u))) 0 (zlen u) []
  = Ok (zlen u, u).
Proof.
  intros F ops b e cs gs fuel n u fuel' FO D Hf CF S L M R Hf'.
  destruct (C111_second_form F F ops b e cs gs fuel n u fuel' FO FO D Hf CF S L M R Hf') as (w & R1 & R2).
  rewrite R in R2. injection R2 as _ ->. exact R1.
Qed.
Print Assumptions C111_idempotent.

(** No part of the condition can be dropped.  [counts n t m]: the text [t] has [n] graphemes,
    what form D writes of it has [m]. *)
Definition counts (n : nat) (t : list Z) (m : nat) : Prop := exists gs u hs,
  segments pairwise_boundary t gs /\ length gs = n /\ form_alone normalization_form_d gnu_sort t u /\
  segments pairwise_boundary u hs /\ length hs = m.
Lemma counts_by n t m u : form_alone normalization_form_d gnu_sort t u -> length (seg t) = n -> length (seg u) = m -> counts n t m.
Proof. intros R A B. exists (seg t), u, (seg u). refine (conj (seg_segments t) (conj A (conj R (conj (seg_segments u) B)))). Qed.
Theorem C111_condition_needed :
  (* e with acute, then a modifier: its mark joins the modifier *)
  counts 2 [0xE9; 0x1F3FB] 1 /\
  (* a mark between a letter and a modifier: the modifier moves before it *)
  counts 1 [0x61; 0x301; 0x1F3FB] 2 /\
  (* a spacing mark: U+0316 moves past it *)
  counts 2 [0x61; 0x316; 0x903; 0x1F3FB] 1 /\
  (* ZWJ, Glue_After_Zwj, a modifier: likewise *)
  counts 2 [0x61; 0x316; 0x200D; 0x1F3FB] 1 /\
  counts 2 [0x61; 0x316; 0x200D; 0x2764; 0x1F3FB] 1 /\
  counts 2 [0x61; 0x316; 0x200D; 0x1F466; 0x1F3FB; 0x1F3FB] 1.
Proof.
  assert (B : forall n t m u, form_alone normalization_form_d gnu_sort t u -> length (seg t) = n /\ length (seg u) = m -> counts n t m).
  { intros n t m u R (X & Y). exact (counts_by n t m u R X Y). }
  split; [apply (B _ _ _ [0x65; 0x301; 0x1F3FB]); [vm_compute; reflexivity|split; vm_compute; reflexivity]|].
  split; [apply (B _ _ _ [0x61; 0x1F3FB; 0x301]); [vm_compute; reflexivity|split; vm_compute; reflexivity]|].
  split; [apply (B _ _ _ [0x61; 0x903; 0x316; 0x1F3FB]); [vm_compute; reflexivity|split; vm_compute; reflexivity]|].
  split; [apply (B _ _ _ [0x61; 0x200D; 0x316; 0x1F3FB]); [vm_compute; reflexivity|split; vm_compute; reflexivity]|].
  split; [apply (B _ _ _ [0x61; 0x200D; 0x2764; 0x316; 0x1F3FB]); [vm_compute; reflexivity|split; vm_compute; reflexivity]|].
  apply (B _ _ _ [0x61; 0x200D; 0x1F466; 0x1F3FB; 0x316; 0x1F3FB]); [vm_compute; reflexivity|split; vm_compute; reflexivity].
Qed.
Print Assumptions C111_condition_needed.
(** The compatibility forms change the graphemes of texts without any emoji: the ligature fi is
    split, the compatibility letters U+3131 and U+314F are joined to a syllable. *)
Theorem C111_compatibility_forms : 
  (exists u, form_alone normalization_form_kd gnu_sort [0xFB01] u /\ length (seg [0xFB01]) = 1%nat /\ length (seg u) = 2%nat) /\
  (exists u, form_alone normalization_form_kd gnu_sort [0x3131; 0x314F] u /\ length (seg [0x3131; 0x314F]) = 2%nat /\ length (seg u) = 1%nat).
Proof. split; [exists [0x66; 0x69]|exists [0x1100; 0x1161]]; (split; [vm_compute; reflexivity|]; split; vm_compute; reflexivity). Qed.
Print Assumptions C111_compatibility_forms.
(** e with acute; boy, modifier, ZWJ, heart, U+0301; the parts of a syllable; x; a modifier after it. *)
Example C111_example : let t := [0xE9; 0x1F466; 0x1F3FB; 0x200D; 0x2764; 0x301; 0x1100; 0x1161; 0x78; 0x1F3FB] in
  modifiers_placed t /\ seg t = [[0xE9]; [0x1F466; 0x1F3FB; 0x200D; 0x2764; 0x301]; [0x1100; 0x1161]; [0x78]; [0x1F3FB]] /\
  exists u, form_alone normalization_form_d gnu_sort t u /\
    seg u = [[0x65; 0x301]; [0x1F466; 0x1F3FB; 0x200D; 0x2764; 0x301]; [0x1100; 0x1161]; [0x78]; [0x1F3FB]].
Proof.
  cbv zeta. split; [|split; [vm_compute; reflexivity|]].
  2: { exists [0x65; 0x301; 0x1F466; 0x1F3FB; 0x200D; 0x2764; 0x301; 0x1100; 0x1161; 0x78; 0x1F3FB]. split; vm_compute; reflexivity. }
  assert (A : adj md [0xE9; 0x1F466; 0x1F3FB; 0x200D; 0x2764; 0x301; 0x1100; 0x1161; 0x78; 0x1F3FB]).
  { cbn [adj]. repeat match goal with |- _ /\ _ => split end; try exact I; intros V; try (vm_compute in V; discriminate V);
      (split; [|split; [|split]]); try (intros X; vm_compute in X; discriminate X); 
      apply (proj2 (Forall_forall _ _)); intros z J; vm_compute in J; destruct J as [<-|[]]; vm_compute; reflexivity. }
  rewrite adj_iff in A. intros x a m y E V. apply gcb_spec in V. destruct (A x a m y E V) as (P & Q & R & W).
  split; [intros X; apply P, gcb_spec, X|]. split; [intros X; apply Q, gcb_spec, X|]. split; [intros X; apply R, gcb_spec, X|].
  intros d z D I. apply canonical_listed in D. cbn [flat_map] in D. rewrite app_nil_r in D. subst d.
  pose proof (proj1 (Forall_forall _ _) W z I) as Z. cbv beta in Z. split; intros X; apply gcb_spec in X; rewrite X in Z; discriminate Z.
Qed.

(** ** C112.  The graphemes of canonically equivalent texts are canonically equivalent, one to one:
    counting, comparing or reversing by graphemes does not depend on how a text is spelt.
    Condition: before an emoji modifier stands no codepoint whose full decomposition has a mark
    (Extend or SpacingMark) in it.  Neither a sort nor a form is involved. *)
Definition modifiers_unmarked (cs : list Z) : Prop := forall x a m y, cs = x ++ a :: m :: y -> has_gcb m G_E_MODIFIER ->
  forall d z, expands_all listed_canonical [a] d -> In z d -> ~ has_gcb z G_EXTEND /\ ~ has_gcb z G_SPACINGMARK.
Lemma unmarked_um cs : modifiers_unmarked cs <-> adj um cs.
Proof.
  rewrite adj_iff. unfold modifiers_unmarked, um. split.
  - intros H x a b y E V. apply gcb_spec in V. apply (proj2 (Forall_forall _ _)). intros z I.
    assert (X : expands_all listed_canonical [a] (full_canonical a)) by (apply canonical_listed; cbn [flat_map]; rewrite app_nil_r; reflexivity).
    destruct (H x a b y E V _ z X I) as (P & Q). destruct (gcb_of z) eqn:V'; try reflexivity; exfalso; [apply P|apply Q]; apply gcb_spec; exact V'.
  - intros H x a b y E V d z D I. apply gcb_spec in V. apply canonical_listed in D. cbn [flat_map] in D. rewrite app_nil_r in D. subst d.
    pose proof (proj1 (Forall_forall _ _) (H x a b y E V) z I) as Z. cbv beta in Z. split; intros X; apply gcb_spec in X; rewrite X in Z; discriminate Z.
Qed.
Theorem C112_equivalent_graphemes : forall ops b e cs pos ops' b' e' cs' pos' fuel fuel',
  string_in_memory ops b e cs pos -> string_in_memory ops' b' e' cs' pos' -> (length cs < fuel)%nat -> (length cs' < fuel')%nat ->
  canonically_equivalent cs cs' -> modifiers_unmarked cs ->
  exists gs gs', graphemes fuel ops b e = Ok gs /\ graphemes fuel' ops' b' e' = Ok gs' /\
    Forall2 canonically_equivalent gs gs' /\ length gs = length gs'.
Proof.
  intros ops b e cs pos ops' b' e' cs' pos' fuel fuel' M M' Hf Hf' E U.
  destruct (C39_graphemes_partition_the_text _ _ _ _ _ fuel M Hf) as (gs & G & S).
  destruct (C39_graphemes_partition_the_text _ _ _ _ _ fuel' M' Hf') as (gs' & G' & S').
  apply seg_eq in S, S'. subst gs gs'. exists (seg cs), (seg cs'). split; [exact G|]. split; [exact G'|].
  pose proof (proj2 (equivalent_same cs cs' E) (proj1 (unmarked_um cs) U)) as F. split; [exact F|].
  clear - F. induction F as [|g h l r _ _ IH]; [reflexivity|]. cbn [length]. f_equal. exact IH.
Qed.
Print Assumptions C112_equivalent_graphemes.
(** So two texts are canonically equivalent if and only if their graphemes are, one to one. *)
Theorem C112_equivalent_iff : forall cs gs cs' gs', segments pairwise_boundary cs gs -> segments pairwise_boundary cs' gs' -> modifiers_unmarked cs ->
  (canonically_equivalent cs cs' <-> Forall2 canonically_equivalent gs gs').
Proof.
  intros cs gs cs' gs' S S' U. apply seg_eq in S, S'. subst gs gs'. split.
  - intros E. exact (proj2 (equivalent_same cs cs' E) (proj1 (unmarked_um cs) U)).
  - intros F. rewrite <- (seg_concat cs), <- (seg_concat cs'). clear U. induction F as [|g h l r E _ IH]; [apply rst_refl|]. cbn [concat].
    apply rst_trans with (h ++ concat l); [exact (equiv_app [] (concat l) g h E)|].
    pose proof (equiv_app h [] _ _ IH) as Q. rewrite !app_nil_r in Q. exact Q.
Qed.
Print Assumptions C112_equivalent_iff.
(** Equivalent texts meet the condition together. *)
Theorem C112_condition_is_shared : forall cs cs', canonically_equivalent cs cs' -> (modifiers_unmarked cs <-> modifiers_unmarked cs').
Proof. intros cs cs' E. rewrite !unmarked_um. exact (proj1 (equivalent_same cs cs' E)). Qed.
Print Assumptions C112_condition_is_shared.
(** It cannot be dropped: e with acute before a modifier. *)
Theorem C112_condition_needed : canonically_equivalent [0xE9; 0x1F3FB] [0x65; 0x301; 0x1F3FB] /\
  graphemes 4 (utf32_ops [0xE9; 0x1F3FB; 0]) 0 2 = Ok [[0xE9]; [0x1F3FB]] /\
  graphemes 4 (utf32_ops [0x65; 0x301; 0x1F3FB; 0]) 0 3 = Ok [[0x65; 0x301; 0x1F3FB]].
Proof.
  split; [apply equivalent_eq; vm_compute; reflexivity|split; vm_compute; reflexivity].
Qed.
Print Assumptions C112_condition_needed.
(** o with dot below and circumflex in two spellings, then a syllable in two. *)
Example C112_example :
  canonically_equivalent [0x1ED9; 0xAC01] [0x6F; 0x302; 0x323; 0x1100; 0x1161; 0x11A8] /\ modifiers_unmarked [0x1ED9; 0xAC01] /\
  graphemes 4 (utf32_ops [0x1ED9; 0xAC01; 0]) 0 2 = Ok [[0x1ED9]; [0xAC01]] /\
  graphemes 7 (utf32_ops [0x6F; 0x302; 0x323; 0x1100; 0x1161; 0x11A8; 0]) 0 6 = Ok [[0x6F; 0x302; 0x323]; [0x1100; 0x1161; 0x11A8]].
Proof.
  split; [|split; [|split; vm_compute; reflexivity]].
  - apply equivalent_eq. vm_compute. reflexivity.
  - apply unmarked_um. cbn [adj]. split; [|exact I]. intros V. vm_compute in V. discriminate V.
Qed.
