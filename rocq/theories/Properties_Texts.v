(** * Properties C60-C65: texts in parts, sizes, order of the output, unchanged texts

    Reading guide as in Properties_Normalize.v.  [output_encoding append]: [append] is the
    append_from_utf32ne of utf8 or of utf32ne; the theorems with it hold for both output
    encodings, including the same failure (let* passes on the first failure). *)
From Coq Require Import Permutation Sorted Relations.
From Verif Require Import Prelude DataTables UcdTables PropsModel Utf8Model TextModel Utf8Spec UnicodeSpec GraphemeSpec TextSpec NormSpec FilterSpec
  PropsProofs LawfulProofs DecompTables DecompProofs GraphemeProofs Uax29Proofs GraphemeText FilterProofs OrderProofs ComposeProofs
  NormData HangulProofs NormProofs NfcProofs NormForms EncodeProofs EncodeText NormUtf8 NormText StdSortModel StdSortProofs
  Properties_Normalize Properties_Sort TextsProofs.
Require Import ZifyBool ZifyNat.

(** ** C60.  The graphemes of two texts put together are the graphemes of the one followed
    by those of the other exactly when there is a boundary where they meet. *)
Theorem C60_graphemes_of_a_concatenation : forall x c y gs hs, x <> [] ->
  segments pairwise_boundary x gs -> segments pairwise_boundary (c :: y) hs ->
  (segments pairwise_boundary (x ++ c :: y) (gs ++ hs) <-> pairwise_boundary x c).
Proof. intros x c y gs hs NE G H. apply seg_eq in G, H. subst. apply seg_app_iff. assumption. Qed.
Print Assumptions C60_graphemes_of_a_concatenation.
Example C60_example : pairwise_boundary [0x65; 0x301] 0x61 /\ ~ pairwise_boundary [0x61; 0x65] 0x301 /\
  segments pairwise_boundary [0x65; 0x301] [[0x65; 0x301]] /\ segments pairwise_boundary [0x61; 0x302] [[0x61; 0x302]].
Proof.
  split; [apply boundary_after; [discriminate|vm_compute; reflexivity]|].
  split; [rewrite boundary_after by discriminate; vm_compute; discriminate|].
  split; [replace [[0x65; 0x301]] with (seg [0x65; 0x301]) by (vm_compute; reflexivity)|
          replace [[0x61; 0x302]] with (seg [0x61; 0x302]) by (vm_compute; reflexivity)]; apply seg_segments.
Qed.

(** ** C61.  Normalizing a text in parts cut at grapheme boundaries, into the same output
    string, does exactly what normalizing it in one go does. *)
Theorem C61_normalizing_in_parts : forall F listed sort append opsx bx ex x opsy by_ ey y ops b e fuel out,
  form_of F listed -> std_sort_ok sort -> output_encoding append ->
  delimited_text opsx bx ex x -> delimited_text opsy by_ ey y -> delimited_text ops b e (x ++ y) ->
  (length (x ++ y) < fuel)%nat -> count_fits listed (x ++ y) ->
  x = [] \/ y = [] \/ (exists c t, y = c :: t /\ pairwise_boundary x c) ->
  normalize fuel ops (F sort append fuel ops) b e out
  = let* '(n, out1) := normalize fuel opsx (F sort append fuel opsx) bx ex out in
    let* '(m, out2) := normalize fuel opsy (F sort append fuel opsy) by_ ey out1 in
    Ok (n + m, out2).
Proof.
  intros F listed sort append opsx bx ex x opsy by_ ey y ops b e fuel out FO SO OE Dx Dy D Hf CF B.
  destruct (form_data_of F listed FO) as (k & full & FD).
  destruct (count_parts listed full x y (data_listed _ _ _ _ FD) CF) as [Cx Cy]. rewrite app_length in Hf.
  rewrite (run_any F listed k full sort append ops b e (x ++ y) fuel out FD SO OE D) by (rewrite ?app_length; assumption).
  rewrite (run_any F listed k full sort append opsx bx ex x fuel out FD SO OE Dx ltac:(lia) Cx).
  rewrite (seg_parts x y B), flat_map_app, (encoding_app append OE).
  destruct (append out (flat_map (norm_grapheme k full sort) (seg x))) as [o| |]; [|reflexivity..]. cbn [bind].
  rewrite (run_any F listed k full sort append opsy by_ ey y fuel o FD SO OE Dy ltac:(lia) Cy).
  destruct (append o (flat_map (norm_grapheme k full sort) (seg y))) as [o'| |]; [|reflexivity..]. cbn [bind].
  rewrite zlen_app'. reflexivity.
Qed.
Print Assumptions C61_normalizing_in_parts.
(** The boundary is needed: "a" and U+0301 on their own stay apart in form C. *)
Theorem C61_boundary_is_needed :
  normalize 4 (utf32_ops [0x61; 0x301; 0]) (normalization_form_c isort utf32_append_from_utf32ne 4 (utf32_ops [0x61; 0x301; 0])) 0 2 [] = Ok (1, [0xE1]) /\
  normalize 4 (utf32_ops [0x61; 0]) (normalization_form_c isort utf32_append_from_utf32ne 4 (utf32_ops [0x61; 0])) 0 1 [] = Ok (1, [0x61]) /\
  normalize 4 (utf32_ops [0x301; 0]) (normalization_form_c isort utf32_append_from_utf32ne 4 (utf32_ops [0x301; 0])) 0 1 [0x61] = Ok (1, [0x61; 0x301]).
Proof. repeat split; vm_compute; reflexivity. Qed.
Print Assumptions C61_boundary_is_needed.
Example C61_example : (* e and acute, then a codepoint that composes with nothing before it *)
  let form t out := normalize 4 (utf32_ops (string_buffer t)) (normalization_form_c isort utf32_append_from_utf32ne 4 (utf32_ops (string_buffer t))) 0 (zlen t) out in
  pairwise_boundary [0x65; 0x301] 0x7A /\ form [0x65; 0x301] [] = Ok (1, [0xE9]) /\ form [0x7A] [0xE9] = Ok (1, [0xE9; 0x7A]) /\
  form [0x65; 0x301; 0x7A] [] = Ok (2, [0xE9; 0x7A]).
Proof. cbv zeta. split; [apply boundary_after; [discriminate|vm_compute; reflexivity]|]. repeat split; vm_compute; reflexivity. Qed.

(** ** C62.  Sizes.  [growth F k]: no codepoint becomes more than [k]. *)
Inductive growth : ((list Z -> list Z) -> (list Z -> list Z -> res (list Z)) -> nat -> cp_ops ->
    Z * Z -> list Z -> res (Z * list Z)) -> Z -> Prop :=
| growth_d : growth normalization_form_d 4
| growth_c : growth normalization_form_c 4
| growth_kd : growth normalization_form_kd 7
| growth_kc : growth normalization_form_kc 7.
Theorem C62_output_size : forall F k sort ops b e cs fuel out,
  growth F k -> std_sort_ok sort -> delimited_text ops b e cs -> (length cs < fuel)%nat -> k * zlen cs <= 2 ^ 31 - 1 ->
  exists d, normalize fuel ops (F sort utf32_append_from_utf32ne fuel ops) b e out = Ok (zlen d, out ++ d) /\
    zlen d <= k * zlen cs.
Proof.
  intros F k sort ops b e cs fuel out G SO D Hf H.
  assert (X : exists listed c full, form_data F listed c full /\ forall x, 1 <= zlen (full x) <= k).
  { destruct G; eexists _, _, _; (split; [constructor|]); first [exact canonical_bound|exact compat_bound]. }
  destruct X as (listed & c & full & FD & FB). pose proof (flat_bound full k cs FB) as [_ B].
  assert (CF : count_fits listed cs).
  { exists (flat_map full cs). split; [apply (data_listed _ _ _ _ FD); reflexivity|]. unfold zlen in *. lia. }
  eexists. split; [exact (run_any32 F listed c full sort ops b e cs fuel out FD SO D Hf CF)|].
  pose proof (norm_length c full sort cs SO). lia.
Qed.
Print Assumptions C62_output_size.
(** Forms D and KD never shrink a text; C is never longer than D, and KC never longer than KD. *)
Theorem C62_compared_sizes : forall listed Fd Fc sort ops b e cs fuel,
  (Fd, Fc) = (normalization_form_d, normalization_form_c) /\ listed = listed_canonical \/
  (Fd, Fc) = (normalization_form_kd, normalization_form_kc) /\ listed = listed_compat ->
  std_sort_ok sort -> delimited_text ops b e cs -> (length cs < fuel)%nat -> count_fits listed cs ->
  exists d u, normalize fuel ops (Fd sort utf32_append_from_utf32ne fuel ops) b e [] = Ok (zlen d, d) /\
    normalize fuel ops (Fc sort utf32_append_from_utf32ne fuel ops) b e [] = Ok (zlen u, u) /\
    zlen cs <= zlen d /\ zlen u <= zlen d.
Proof.
  intros listed Fd Fc sort ops b e cs fuel H SO D Hf CF.
  assert (X : exists full n, form_data Fd listed false full /\ form_data Fc listed true full /\ forall x, 1 <= zlen (full x) <= n).
  { destruct H as [[E ->]|[E ->]]; injection E as -> ->; eexists _, _; (split; [constructor|split; [constructor|]]).
    - exact canonical_bound.
    - exact compat_bound. }
  destruct X as (full & n & FD & FC & FB). eexists _, _.
  split; [exact (run_any32 Fd listed false full sort ops b e cs fuel [] FD SO D Hf CF)|].
  split; [exact (run_any32 Fc listed true full sort ops b e cs fuel [] FC SO D Hf CF)|]. cbn [app].
  rewrite (norm_length_d full sort cs SO). pose proof (flat_bound full n cs FB). pose proof (norm_length true full sort cs SO). lia.
Qed.
Print Assumptions C62_compared_sizes.
Example C62_example : (* the bounds are attained: U+1F82 in form D *)
  normalize 4 (utf32_ops [0x1F82; 0]) (normalization_form_d isort utf32_append_from_utf32ne 4 (utf32_ops [0x1F82; 0])) 0 1 []
  = Ok (4, [0x3B1; 0x313; 0x300; 0x345]) /\
  delimited_text (utf32_ops [0x1F82; 0]) 0 1 [0x1F82].
Proof. split; [vm_compute; reflexivity|]. exact (delimited_string _ _ _ _ _ (utf32_string [0x1F82])). Qed.

(** ** C63.  Whatever the input, and whichever allowed sort: no two neighbours of the output
    are in the wrong order, and form D (KD) leaves nothing that has a mapping. *)
Theorem C63_output_is_ordered : forall F listed sort ops b e cs fuel out,
  form_of F listed -> std_sort_ok sort -> delimited_text ops b e cs -> (length cs < fuel)%nat -> count_fits listed cs ->
  exists u, normalize fuel ops (F sort utf32_append_from_utf32ne fuel ops) b e out = Ok (zlen u, out ++ u) /\
    canonically_ordered u.
Proof.
  intros F listed sort ops b e cs fuel out FO SO D Hf CF. destruct (form_data_of F listed FO) as (k & full & FD).
  eexists. split; [exact (run_any32 F listed k full sort ops b e cs fuel out FD SO D Hf CF)|].
  apply orderedb_spec. destruct FD; apply norm_ordered; first [assumption|exact full_canonical_ne|exact full_compat_ne|exact canonical_head|
    exact compat_head|exact canonical_control|exact compat_control].
Qed.
Print Assumptions C63_output_is_ordered.
Theorem C63_output_is_decomposed : forall Fd listed sort ops b e cs fuel out,
  Fd = normalization_form_d /\ listed = listed_canonical \/ Fd = normalization_form_kd /\ listed = listed_compat ->
  std_sort_ok sort -> delimited_text ops b e cs -> (length cs < fuel)%nat -> count_fits listed cs ->
  exists d, normalize fuel ops (Fd sort utf32_append_from_utf32ne fuel ops) b e out = Ok (zlen d, out ++ d) /\
    canonical_order d d /\ expands_all listed d d /\
    (nfd d d <-> forall s, In s d -> ~ hangul_syllable s).
Proof.
  intros Fd listed sort ops b e cs fuel out H SO D Hf CF.
  assert (X : exists full, form_data Fd listed false full /\ (forall c x, In x (full c) -> full x = [x]) /\
     (forall c x, In x (full c) -> full_canonical x = [x])).
  { destruct H as [[-> ->]|[-> ->]]; eexists; (split; [constructor|]).
    - split; exact full_canonical_fix.
    - split; [exact full_compat_fix|]. exact compat_plain. }
  destruct X as (full & FD & FX & FP).
  eexists. split; [exact (run_any32 Fd listed false full sort ops b e cs fuel out FD SO D Hf CF)|].
  assert (O : orderedb (flat_map (norm_grapheme false full sort) (seg cs)) = true).
  { destruct FD; apply norm_ordered; first [assumption|exact full_canonical_ne|exact full_compat_ne|exact canonical_head|
    exact compat_head|exact canonical_control|exact compat_control]. }
  assert (M : forall x, In x (flat_map (norm_grapheme false full sort) (seg cs)) -> full x = [x] /\ full_canonical x = [x]).
  { intros x I. apply in_flat_map in I. destruct I as (g & _ & I). unfold norm_grapheme in I.
    eapply Permutation_in in I; [|symmetry; apply SO]. apply in_flat_map in I. destruct I as (y & _ & I). split; eauto. }
  set (d := flat_map _ _) in *. clearbody d.
  assert (OD : canonical_order d d).
  { split; [apply rt_refl|]. apply orderedb_spec. assumption. }
  split; [assumption|]. split.
  - apply (data_listed _ _ _ _ FD). symmetry. apply flat_map_id. intros x I. apply M. assumption.
  - rewrite nfd_eq. rewrite (flat_map_id full_canonical) by (intros x I; apply M; assumption). rewrite (corder_id d O). split.
    + intros E s I S. apply is_syllable_spec in S. rewrite E in I. pose proof (jamo_no_syllable d s I). congruence.
    + intros N. symmetry. apply flat_map_id. intros x I. apply jamo_other. destruct (is_syllable x) eqn:X; [|reflexivity].
      exfalso. apply (N x I). apply is_syllable_spec. assumption.
Qed.
Print Assumptions C63_output_is_decomposed.
Example C63_example : (* an unordered, composed input; the acute of U+00E9 and the dot below change places *)
  normalize 4 (utf32_ops [0xE9; 0x323; 0]) (normalization_form_d isort utf32_append_from_utf32ne 4 (utf32_ops [0xE9; 0x323; 0])) 0 2 []
  = Ok (3, [0x65; 0x323; 0x301]) /\ ~ canonically_ordered [0x65; 0x301; 0x323].
Proof.
  split; [vm_compute; reflexivity|]. rewrite <- orderedb_spec. vm_compute. discriminate.
Qed.

(** ** C64.  Two texts have the same form C exactly when they have the same form D (KC, KD
    likewise). *)
Theorem C64_same_form_c_iff_same_form_d : forall listed Fd Fc sort ops b e cs gs ops' b' e' cs' gs' fuel,
  (Fd, Fc) = (normalization_form_d, normalization_form_c) /\ listed = listed_canonical \/
  (Fd, Fc) = (normalization_form_kd, normalization_form_kc) /\ listed = listed_compat ->
  std_sort_ok sort -> delimited_text ops b e cs -> delimited_text ops' b' e' cs' ->
  (length cs < fuel)%nat -> (length cs' < fuel)%nat -> count_fits listed cs -> count_fits listed cs' ->
  segments pairwise_boundary cs gs -> segments pairwise_boundary cs' gs' -> ties_kept sort listed gs -> ties_kept sort listed gs' ->
  exists n d m u n' d' m' u',
    normalize fuel ops (Fd sort utf32_append_from_utf32ne fuel ops) b e [] = Ok (n, d) /\
    normalize fuel ops (Fc sort utf32_append_from_utf32ne fuel ops) b e [] = Ok (m, u) /\
    normalize fuel ops' (Fd sort utf32_append_from_utf32ne fuel ops') b' e' [] = Ok (n', d') /\
    normalize fuel ops' (Fc sort utf32_append_from_utf32ne fuel ops') b' e' [] = Ok (m', u') /\
    (u = u' <-> d = d').
Proof.
  intros listed Fd Fc sort ops b e cs gs ops' b' e' cs' gs' fuel H SO D D' Hf Hf' CF CF' S S' K K'.
  apply seg_eq in S, S'. subst gs gs'.
  assert (X : exists full, form_data Fd listed false full /\ form_data Fc listed true full /\
    (forall c, form_c_of full c = compose (form_d_of full c)) /\ (forall c, flat_map full (form_c_of full c) = form_d_of full c)).
  { destruct H as [[E ->]|[E ->]]; injection E as -> ->; eexists; (split; [constructor|split; [constructor|split]]).
    - apply (form_c_eq _ full_canonical_ne canonical_head canonical_control).
    - apply (form_c_full _ full_canonical_ne canonical_head canonical_control full_canonical_fix canonical_compose).
    - apply (form_c_eq _ full_compat_ne compat_head compat_control).
    - apply (form_c_full _ full_compat_ne compat_head compat_control full_compat_fix compat_compose). }
  destruct X as (full & FD & FC & Q1 & Q2). eexists _, _, _, _, _, _, _, _.
  split; [exact (run_any32 Fd listed false full sort ops b e cs fuel [] FD SO D Hf CF)|].
  split; [exact (run_any32 Fc listed true full sort ops b e cs fuel [] FC SO D Hf CF)|].
  split; [exact (run_any32 Fd listed false full sort ops' b' e' cs' fuel [] FD SO D' Hf' CF')|].
  split; [exact (run_any32 Fc listed true full sort ops' b' e' cs' fuel [] FC SO D' Hf' CF')|]. cbn [app].
  assert (Y : forall cs, ties_kept sort listed (seg cs) -> flat_map (norm_grapheme true full sort) (seg cs) = form_c_of full cs /\
     flat_map (norm_grapheme false full sort) (seg cs) = form_d_of full cs).
  { intros c T. rewrite <- (d_pieces_eq listed full (data_listed _ _ _ _ FD) sort SO c T), <- (c_pieces_eq listed full (data_listed _ _ _ _ FD) sort SO c T).
    rewrite !flat_map_concat_map. unfold c_pieces, d_pieces, norm_grapheme. rewrite map_map. split; reflexivity. }
  destruct (Y cs K) as [-> ->], (Y cs' K') as [-> ->]. split; intros E.
  - rewrite <- (Q2 cs), <- (Q2 cs'), E. reflexivity.
  - rewrite (Q1 cs), (Q1 cs'), E. reflexivity.
Qed.
Print Assumptions C64_same_form_c_iff_same_form_d.
Example C64_example : (* U+1E69 and "s", dot above, dot below *)
  normalize 4 (utf32_ops [0x1E69; 0]) (normalization_form_c isort utf32_append_from_utf32ne 4 (utf32_ops [0x1E69; 0])) 0 1 [] = Ok (1, [0x1E69]) /\
  normalize 4 (utf32_ops [0x73; 0x307; 0x323; 0]) (normalization_form_c isort utf32_append_from_utf32ne 4 (utf32_ops [0x73; 0x307; 0x323; 0])) 0 3 [] = Ok (1, [0x1E69]).
Proof. split; vm_compute; reflexivity. Qed.

(** ** C65.  Which texts normalization leaves alone. *)
Theorem C65_form_d_changes_nothing_iff : forall Fd listed sort ops b e cs gs fuel,
  Fd = normalization_form_d /\ listed = listed_canonical \/ Fd = normalization_form_kd /\ listed = listed_compat ->
  std_sort_ok sort -> delimited_text ops b e cs -> (length cs < fuel)%nat -> count_fits listed cs ->
  segments pairwise_boundary cs gs -> ties_kept sort listed gs ->
  (normalize fuel ops (Fd sort utf32_append_from_utf32ne fuel ops) b e [] = Ok (zlen cs, cs) <->
   (forall c m, In c cs -> ~ listed c m) /\ (forall g, In g gs -> StronglySorted ccc_le g)).
Proof.
  intros Fd listed sort ops b e cs gs fuel H SO D Hf CF S K. apply seg_eq in S. subst gs.
  assert (X : exists full, form_data Fd listed false full /\ (forall c x, In x (full c) -> full x = [x]) /\
     (forall c, full c = [c] <-> forall m, ~ listed c m)).
  { destruct H as [[-> ->]|[-> ->]]; eexists; (split; [constructor|split]).
    - exact full_canonical_fix.
    - intros c. unfold full_canonical. rewrite (unmapped_iff _ _ c canonical_table). split; intros N m; specialize (N m); rewrite rel_canonical in *; assumption.
    - exact full_compat_fix.
    - intros c. unfold full_compat. rewrite (unmapped_iff _ _ c compat_table). split; intros N m; specialize (N m); rewrite rel_compat in *; assumption. }
  destruct X as (full & FD & FX & FU). rewrite (run_any32 Fd listed false full sort ops b e cs fuel [] FD SO D Hf CF). cbn [app].
  assert (Y : flat_map (norm_grapheme false full sort) (seg cs) = flat_map (norm_grapheme false full isort) (seg cs)).
  { rewrite !flat_map_concat_map. f_equal. apply map_ext_in. intros g I. unfold norm_grapheme. apply sort_kept_eq; [assumption|].
    apply (K g); [assumption|]. apply (data_listed _ _ _ _ FD). reflexivity. }
  rewrite Y. transitivity (flat_map (norm_grapheme false full isort) (seg cs) = cs).
  - split; [intros E; injection E as _ E; exact E|intros ->; reflexivity].
  - rewrite (unchanged_d_iff full FX). split; intros [A B]; (split; [|exact B]).
    + intros c m I. apply FU. auto.
    + intros c I. apply FU. intros m. auto.
Qed.
Print Assumptions C65_form_d_changes_nothing_iff.
Theorem C65_form_c_changes_nothing_iff : forall Fc listed sort ops b e cs gs fuel,
  Fc = normalization_form_c /\ listed = listed_canonical \/ Fc = normalization_form_kc /\ listed = listed_compat ->
  std_sort_ok sort -> delimited_text ops b e cs -> (length cs < fuel)%nat -> count_fits listed cs ->
  segments pairwise_boundary cs gs -> ties_kept sort listed gs ->
  (normalize fuel ops (Fc sort utf32_append_from_utf32ne fuel ops) b e [] = Ok (zlen cs, cs) <->
   forall g f, In g gs -> expands_all listed g f -> StronglySorted ccc_le f /\ greedy f g).
Proof.
  intros Fc listed sort ops b e cs gs fuel H SO D Hf CF S K. apply seg_eq in S. subst gs.
  assert (X : exists full, form_data Fc listed true full /\ (forall c, full c <> []) /\ (forall c x, In x (full c) -> full x = [x]) /\
     (forall l, flat_map full (compose l) = flat_map full l)).
  { destruct H as [[-> ->]|[-> ->]]; eexists; (split; [constructor|]).
    - split; [exact full_canonical_ne|]. split; [exact full_canonical_fix|exact canonical_compose].
    - split; [exact full_compat_ne|]. split; [exact full_compat_fix|exact compat_compose]. }
  destruct X as (full & FD & FN & FX & FC). rewrite (run_any32 Fc listed true full sort ops b e cs fuel [] FD SO D Hf CF). cbn [app].
  assert (Y : flat_map (norm_grapheme true full sort) (seg cs) = flat_map (norm_grapheme true full isort) (seg cs)).
  { rewrite !flat_map_concat_map. f_equal. apply map_ext_in. intros g I. unfold norm_grapheme. f_equal. apply sort_kept_eq; [assumption|].
    apply (K g); [assumption|]. apply (data_listed _ _ _ _ FD). reflexivity. }
  rewrite Y. transitivity (flat_map (norm_grapheme true full isort) (seg cs) = cs).
  - split; [intros E; injection E as _ E; exact E|intros ->; reflexivity].
  - rewrite (unchanged_c_iff full FN FX FC). split.
    + intros A g f I E. apply (data_listed _ _ _ _ FD) in E. subst f. auto.
    + intros A g I. apply A; [assumption|]. apply (data_listed _ _ _ _ FD). reflexivity.
Qed.
Print Assumptions C65_form_c_changes_nothing_iff.
(** Text of codepoints below U+0300 (all of Latin-1 and of Latin Extended-A, -B): form C with
    libstdc++'s sort leaves it alone.  (Any allowed sort that keeps ties would do.) *)
Definition below_300_ok (c : Z) : bool :=
  match compose (isort (full_canonical c)) with [x] => x =? c | _ => false end
  && (length (full_canonical c) <=? 16)%nat
  && match gcb_of c with G_CONTROL | G_OTHER => true | G_CR => c =? 0xD | G_LF => c =? 0xA | _ => false end.
Lemma below_300_all : forallb below_300_ok (map Z.of_nat (seq 0 768)) = true.
Proof. vm_cast_no_check (eq_refl true). Qed.
Lemma below_300 c : 0 <= c < 0x300 -> below_300_ok c = true.
Proof.
  intros H. pose proof below_300_all as Q. rewrite forallb_forall in Q. apply Q. apply in_map_iff. exists (Z.to_nat c).
  split; [lia|]. apply in_seq. lia.
Qed.
Lemma below_300_break a b : 0 <= a < 0x300 -> 0 <= b < 0x300 -> brk a b = false -> a = 0xD /\ b = 0xA.
Proof.
  intros A B. apply below_300 in A, B. unfold below_300_ok in A, B. apply andb_prop in A, B. destruct A as [_ A], B as [_ B].
  unfold brk. destruct (gcb_of a), (gcb_of b); try discriminate; intros E; try (vm_compute in E; discriminate E). lia.
Qed.
Lemma below_300_graphemes cs g : (forall c, In c cs -> 0 <= c < 0x300) -> In g (seg cs) -> (exists c, g = [c] /\ 0 <= c < 0x300) \/ g = [0xD; 0xA].
Proof.
  intros H I. assert (G : forall c, In c g -> 0 <= c < 0x300).
  { intros c Ic. apply H. rewrite <- (seg_concat cs). apply in_concat. eauto. }
  pose proof (seg_nonempty cs) as NE. rewrite Forall_forall in NE. specialize (NE g I).
  destruct g as [|a [|b g]]; [contradiction|left; exists a; split; [reflexivity|apply G; left; reflexivity]|]. right.
  destruct (below_300_break a b) as [-> ->].
  - apply G; left; reflexivity.
  - apply G; right; left; reflexivity.
  - exact (seg_inside cs _ [] a b g I eq_refl).
  - destruct g as [|d g]; [reflexivity|]. exfalso.
    destruct (below_300_break 0xA d) as [E _]; [lia|apply G; right; right; left; reflexivity| |discriminate E].
    exact (seg_inside cs _ [0xD] 0xA d g I eq_refl).
Qed.
Lemma sort_single sort c : std_sort_ok sort -> sort [c] = [c].
Proof. intros SO. apply Permutation_length_1_inv. apply SO. Qed.
Theorem C65_latin_text_is_unchanged_by_form_c : forall ops b e cs fuel,
  (forall c, In c cs -> 0 <= c < 0x300) -> delimited_text ops b e cs -> (length cs < fuel)%nat -> zlen cs <= 500000000 ->
  normalize fuel ops (normalization_form_c gnu_sort utf32_append_from_utf32ne fuel ops) b e [] = Ok (zlen cs, cs).
Proof.
  intros ops b e cs fuel H D Hf LE. pose proof (flat_bound full_canonical 4 cs canonical_bound) as [_ B].
  assert (CF : count_fits listed_canonical cs).
  { exists (flat_map full_canonical cs). split; [apply canonical_listed; reflexivity|]. unfold zlen in *. lia. }
  assert (X : forall g, In g (seg cs) -> (length (flat_map full_canonical g) <= 16)%nat /\ norm_grapheme true full_canonical isort g = g).
  { intros g I. destruct (below_300_graphemes cs g H I) as [(c & -> & C)| ->].
    - apply below_300 in C. unfold below_300_ok in C. apply andb_prop in C. destruct C as [C _]. apply andb_prop in C. destruct C as [C1 C2].
      unfold norm_grapheme. cbn [flat_map]. rewrite app_nil_r. split; [lia|].
      destruct (compose (isort (full_canonical c))) as [|x [|]]; try discriminate C1. apply Z.eqb_eq in C1. congruence.
    - assert (Q : flat_map full_canonical [0xD; 0xA] = [0xD; 0xA]) by (vm_compute; reflexivity).
      unfold norm_grapheme. rewrite Q. split; [cbn; lia|vm_compute; reflexivity]. }
  rewrite (run_any32 _ _ _ _ gnu_sort ops b e cs fuel [] fd_c C58_an_allowed_sort D Hf CF). cbn [app].
  rewrite (seg_fixed (norm_grapheme true full_canonical gnu_sort) cs); [reflexivity|].
  intros g I. destruct (X g I) as [SH E]. rewrite <- E at 2. unfold norm_grapheme. f_equal. apply sort_kept_eq; [exact C58_an_allowed_sort|].
  destruct (C59_short_strings _ SH) as (l' & S & K). unfold gnu_sort. rewrite S. assumption.
Qed.
Print Assumptions C65_latin_text_is_unchanged_by_form_c.
Lemma ascii_full c : 0 <= c < 0x80 -> full_canonical c = [c] /\ full_compat c = [c].
Proof.
  intros H. assert (Q : forallb (fun c => match full_canonical c, full_compat c with [x], [y] => (x =? c) && (y =? c) | _, _ => false end) (map Z.of_nat (seq 0 128)) = true)
    by (vm_compute; reflexivity).
  rewrite forallb_forall in Q. specialize (Q c). destruct (full_canonical c) as [|x [|]], (full_compat c) as [|y [|]];
    (assert (I : In c (map Z.of_nat (seq 0 128))) by (apply in_map_iff; exists (Z.to_nat c); split; [lia|apply in_seq; lia]));
    specialize (Q I); try discriminate Q. split; f_equal; lia.
Qed.
(** ASCII text: all four forms leave it alone, in UTF-32 and (without NUL, C19) in UTF-8. *)
Theorem C65_ascii_text_is_unchanged : forall F listed cs fuel,
  form_of F listed -> (forall c, In c cs -> 1 <= c < 0x80) -> (length cs < fuel)%nat -> zlen cs <= 2 ^ 31 - 1 ->
  normalize fuel (utf32_ops (string_buffer cs)) (F gnu_sort utf32_append_from_utf32ne fuel (utf32_ops (string_buffer cs))) 0 (zlen cs) []
  = Ok (zlen cs, cs) /\
  normalize fuel (utf8_ops (string_buffer cs)) (F gnu_sort utf8_append_from_utf32ne fuel (utf8_ops (string_buffer cs))) 0 (zlen cs) []
  = Ok (zlen cs, cs).
Proof.
  intros F listed cs fuel FO H Hf LE. destruct (form_data_of F listed FO) as (k & full & FD).
  assert (U : forall c, In c cs -> full c = [c]).
  { intros c I. specialize (H c I). destruct (ascii_full c) as [A B]; [lia|]. destruct FD; assumption. }
  assert (FM : flat_map full cs = cs) by (apply flat_map_id; exact U).
  assert (CF : count_fits listed cs).
  { exists cs. split; [apply (data_listed _ _ _ _ FD); congruence|exact LE]. }
  assert (UT : utf8_text cs = cs).
  { clear - H. induction cs as [|c cs IH]; [reflexivity|]. cbn [utf8_text flat_map]. fold (utf8_text cs). rewrite IH by (intros; apply H; right; assumption).
    specialize (H c (or_introl eq_refl)). unfold utf8_encode. destruct (Z.ltb_spec c 128); [reflexivity|lia]. }
  assert (C31 : Forall codepoint31 cs).
  { apply Forall_forall. intros c I. specialize (H c I). unfold codepoint31. change (2 ^ 31) with 2147483648. lia. }
  assert (NM : flat_map (norm_grapheme k full gnu_sort) (seg cs) = cs).
  { apply seg_fixed. intros g I.
    assert (IG : forall c, In c g -> In c cs) by (intros c Ic; rewrite <- (seg_concat cs); apply in_concat; eauto).
    unfold norm_grapheme. rewrite flat_map_id by (intros x Ix; apply U; auto).
    destruct (below_300_graphemes cs g) as [(c & -> & C)| ->]; [intros c Ic; specialize (H c Ic); lia|assumption| |].
    - rewrite sort_single by exact C58_an_allowed_sort. destruct k; reflexivity.
    - destruct k; vm_compute; reflexivity. }
  split.
  - rewrite (run_any32 F listed k full gnu_sort _ 0 (zlen cs) cs fuel [] FD C58_an_allowed_sort); [rewrite NM; reflexivity| |assumption|assumption].
    eapply delimited_string. constructor.
  - pose proof (delimited_string _ _ _ _ _ (utf8_string cs C31)) as D8. rewrite UT in D8.
    rewrite (run_any F listed k full gnu_sort _ _ 0 (zlen cs) cs fuel [] FD C58_an_allowed_sort utf8_output D8 Hf CF). rewrite NM.
    assert (E : utf8_append_from_utf32ne [] cs = Ok ([] ++ utf8_text cs)).
    { apply unicode_text_iff; [|intros c I; specialize (H c I); lia].
      apply Forall_forall. intros c I. specialize (H c I). unfold unicode_codepoint. lia. }
    rewrite E. cbn [bind app]. rewrite UT. reflexivity.
Qed.
Print Assumptions C65_ascii_text_is_unchanged.
Example C65_example : (* "a\r\nU+01D5" *)
  normalize 6 (utf32_ops [0x61; 0xD; 0xA; 0x1D5; 0]) (normalization_form_c gnu_sort utf32_append_from_utf32ne 6 (utf32_ops [0x61; 0xD; 0xA; 0x1D5; 0])) 0 4 []
  = Ok (4, [0x61; 0xD; 0xA; 0x1D5]) /\
  normalize 6 (utf32_ops [0x61; 0xD; 0xA; 0x1D5; 0]) (normalization_form_d gnu_sort utf32_append_from_utf32ne 6 (utf32_ops [0x61; 0xD; 0xA; 0x1D5; 0])) 0 4 []
  = Ok (6, [0x61; 0xD; 0xA; 0x55; 0x308; 0x304]).
Proof. split; vm_compute; reflexivity. Qed.

(** ** C66.  Truncating at a native position with output.append(gb, gi), [gi] constructed at
    that position (examples/truncate_on_grapheme.cpp).  Meant: keep the whole graphemes
    before the one that contains the position.  False: in "x" L V T the iterator
    constructed at T starts at V, and the L is kept without its V. *)
Theorem C66_truncate_on_grapheme_refuted : exists gb gi,
  let ops := utf32_ops (string_buffer [0x78; 0x1100; 0x1161; 0x11A8]) in
  graphemes 5 ops 0 4 = Ok [[0x78]; [0x1100; 0x1161; 0x11A8]] /\
  grapheme_begin 5 ops 0 4 = Ok gb /\ gi_make3 5 ops 0 4 3 = Ok gi /\
  utf32_append_graphemes [] (string_buffer [0x78; 0x1100; 0x1161; 0x11A8]) gb gi = Ok [0x78; 0x1100].
Proof. eexists _, _. repeat (split; [vm_compute; reflexivity|]). vm_compute. reflexivity. Qed.
Print Assumptions C66_truncate_on_grapheme_refuted.
(** What is kept is always a prefix of whole codepoints from before the position (in UTF-8:
    the low 8 bits of each, C26); it is the graphemes before exactly under the condition of C41. *)
Definition backwards_condition (cs : list Z) (s i : nat) : Prop :=
  i = s \/ ((s = 0%nat \/ pairwise_boundary [nth (S s) cs 0] (nth s cs 0)) /\
           forall k, (s < k < i)%nat -> ~ pairwise_boundary [nth (S k) cs 0] (nth k cs 0)).
Theorem C66_truncate_on_grapheme_utf8_partial : forall cs before g after i p fuel out,
  Forall codepoint31 cs -> segments pairwise_boundary cs (before ++ g :: after) ->
  (length (concat before) <= i < length (concat before) + length g)%nat ->
  zlen (utf8_text (firstn i cs)) <= p < zlen (utf8_text (firstn (S i) cs)) -> (length cs < fuel)%nat ->
  let mem := string_buffer (utf8_text cs) in
  exists gb gi kept,
    grapheme_begin fuel (utf8_ops mem) 0 (zlen (utf8_text cs)) = Ok gb /\
    gi_make3 fuel (utf8_ops mem) 0 (zlen (utf8_text cs)) p = Ok gi /\
    utf8_append_graphemes fuel out mem gb gi = Ok (out ++ map (fun c => c mod 256) kept) /\
    (exists k, (k <= i)%nat /\ kept = firstn k cs) /\
    (kept = concat before <-> backwards_condition cs (length (concat before)) i).
Proof.
  intros cs before g after i p fuel out C31 S Hi Hp Hf mem.
  pose proof (utf8_string_text cs C31) as T. pose proof (ti_lawful _ _ _ _ _ _ _ T) as L.
  assert (LC : (i < length cs)%nat).
  { destruct S as (E & _). rewrite <- E, concat_app, app_length. cbn [concat]. rewrite app_length. lia. }
  assert (IN : uinside 0 (cs ++ [0]) i p).
  { unfold uinside, upos. rewrite !firstn_app. replace (i - length cs)%nat with 0%nat by lia. replace (Datatypes.S i - length cs)%nat with 0%nat by lia.
    change (firstn 0 [0]) with (@nil Z). rewrite !app_nil_r. lia. }
  destruct (text_make3_inside _ _ _ cs 0 _ _ T fuel before g after i p S Hi IN Hf) as (it & s' & E & _ & W & _ & Hs & I).
  destruct (text_begin _ _ _ cs 0 _ _ T fuel ltac:(lia)) as (gb & EB & (WB & _)).
  exists gb, it, (firstn s' cs). split; [exact EB|]. split; [exact E|]. split.
  - unfold utf8_append_graphemes, gi_deref. cbn [fst]. rewrite WB.
    rewrite (as_chars_ok _ (cs ++ [0]) _ _ L (length cs) (text_n cs 0) (s' - 0) 0%nat s' _ (g_where it) fuel out);
      [|reflexivity|rewrite app_length; cbn; lia|apply (lw_pos _ _ _ _ L); rewrite app_length; cbn; lia|assumption|lia].
    rewrite sub_prefix by lia. reflexivity.
  - split; [exists s'; split; [lia|reflexivity]|]. unfold backwards_condition. rewrite <- I.
    destruct S as (EC & _). apply (prefix_before cs before g after s' EC). lia.
Qed.
Print Assumptions C66_truncate_on_grapheme_utf8_partial.
Theorem C66_truncate_on_grapheme_utf32_partial : forall cs before g after i fuel out,
  segments pairwise_boundary cs (before ++ g :: after) ->
  (length (concat before) <= i < length (concat before) + length g)%nat -> (length cs < fuel)%nat ->
  let mem := string_buffer cs in
  exists gb gi kept,
    grapheme_begin fuel (utf32_ops mem) 0 (zlen cs) = Ok gb /\
    gi_make3 fuel (utf32_ops mem) 0 (zlen cs) (Z.of_nat i) = Ok gi /\
    utf32_append_graphemes out mem gb gi = Ok (out ++ kept) /\
    (exists k, (k <= i)%nat /\ kept = firstn k cs) /\
    (kept = concat before <-> backwards_condition cs (length (concat before)) i).
Proof.
  intros cs before g after i fuel out S Hi Hf mem. pose proof (utf32_string_text cs) as T.
  destruct (text_make3_inside _ _ _ cs 0 _ _ T fuel before g after i (Z.of_nat i) S Hi eq_refl Hf) as (it & s' & E & _ & W & _ & Hs & I).
  destruct (text_begin _ _ _ cs 0 _ _ T fuel ltac:(lia)) as (gb & EB & (WB & _)).
  exists gb, it, (firstn s' cs). split; [exact EB|]. split; [exact E|]. split.
  - unfold utf32_append_graphemes, gi_deref. cbn [fst]. rewrite WB, W. unfold mem.
    rewrite (utf32_slice cs 0 s') by lia. cbn [bind]. unfold sub. rewrite Nat.sub_0_r. reflexivity.
  - split; [exists s'; split; [lia|reflexivity]|]. unfold backwards_condition. rewrite <- I.
    destruct S as (EC & _). apply (prefix_before cs before g after s' EC). lia.
Qed.
Print Assumptions C66_truncate_on_grapheme_utf32_partial.
Example C66_example : (* the example program: "Ola", U+0301, "!" cut at octet 4 gives "Ol" *)
  let cs := [0x4F; 0x6C; 0x61; 0x301; 0x21] in
  let ops := utf8_ops (string_buffer (utf8_text cs)) in
  (exists gb gi, grapheme_begin 6 ops 0 6 = Ok gb /\ gi_make3 6 ops 0 6 4 = Ok gi /\
     utf8_append_graphemes 6 [] (string_buffer (utf8_text cs)) gb gi = Ok [0x4F; 0x6C]) /\
  segments pairwise_boundary cs ([[0x4F]; [0x6C]] ++ [0x61; 0x301] :: [[0x21]]) /\ backwards_condition cs 2 3.
Proof.
  cbv zeta. split; [|split].
  - eexists _, _. split; [vm_compute; reflexivity|]. split; vm_compute; reflexivity.
  - replace ([[0x4F]; [0x6C]] ++ [0x61; 0x301] :: [[0x21]]) with (seg [0x4F; 0x6C; 0x61; 0x301; 0x21]) by (vm_compute; reflexivity).
    apply seg_segments.
  - right. split; [right|intros; lia]. apply (pairwise_boundary_snoc []). vm_compute. reflexivity.
Qed.
