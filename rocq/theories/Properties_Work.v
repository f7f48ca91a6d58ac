(** * Properties C117, C118: the work of lookups, of std::sort, and of a whole normalization

    SortCostModel.v and WorkModel.v say again what the model says, with a count.
    - [*_resolve_c] count the row comparisons of the five table lookups; [std_sort_c], [sort_by_combining_class_c] the calls
      of the comparator.
    - [normalize_w fuel ops op b e out = Ok (r, k)]: the client's call [filter(s.grapheme_begin(), s.grapheme_end(), out, op)] ends
      with [r], and [k] is the number of operations on codepoint iterators of the text ( ==, !=, *, ++, -- ), of table lookups
      (two for each call of the comparator), and of codepoints copied into a string.  The sort is that of libstdc++ 13
      ([gnu_sort]).
    [form_of_w F listed Fw]: [F] is one of the four forms, [Fw] the same with the count. *)
From Coq Require Import Permutation Sorted Relations.
From Verif Require Import Prelude DataTables UcdTables PropsModel Utf8Model TextModel StdSortModel Utf8Spec UnicodeSpec GraphemeSpec TextSpec NormSpec FilterSpec
  PropsProofs LawfulProofs DecompTables DecompProofs GraphemeProofs Uax29Proofs GraphemeText FilterProofs OrderProofs ComposeProofs NormProofs NormText NormUtf8
  StdSortProofs TextsProofs CostModel CostProofs SortCostModel SortCostProofs WorkModel WorkProofs Properties_Graphemes Properties_Normalize Properties_Sort Properties_Texts.
Require Import ZifyBool ZifyNat.

(** ** C117: one lookup, one sort *)
(** In a table of fewer than [2^k] rows, of whatever contents and in whatever order, a lookup that ends compares at most [k]. *)
Theorem C117_a_lookup_is_logarithmic : forall R (cmp : R -> Z) (table : list R) k found c,
  (length table < 2 ^ k)%nat -> bsearch_c cmp table = Ok (found, c) ->
  bsearch cmp table = Ok found /\ (c <= k)%nat.
Proof.
  intros R cmp table k found c H E. split; [|eapply bsearch_cost; eassumption].
  apply erase_run in E. rewrite <- E. unfold bsearch, bsearch_c. symmetry. apply erase_bsearch_loop.
Qed.
Print Assumptions C117_a_lookup_is_logarithmic.

Lemma lookup_count {A R} (m : counted A) (v : A) (f : option R -> counted A) cmp (table : list R) k :
  m = (do e <- bsearch_c cmp table; f e) -> (length table < 2 ^ k)%nat -> (forall e a n, f e = Ok (a, n) -> n = 0%nat) ->
  erase m = Ok v -> exists n, m = Ok (v, n) /\ (n <= k)%nat.
Proof.
  intros -> H F E. destruct (erase_ok _ _ E) as (n & Q). exists n. split; [exact Q|]. apply cbind_ok in Q. destruct Q as (a & k1 & k2 & A1 & A2 & ->).
  apply F in A2. apply (bsearch_cost cmp table k) in A1; [lia|exact H].
Qed.

(** The tables as they are: 814, 2060, 2780, 940 and 1327 rows. *)
Theorem C117_combining_class : forall c v, canonical_combining_class_resolve c = Ok v ->
  exists n, canonical_combining_class_resolve_c c = Ok (v, n) /\ (n <= 10)%nat.
Proof.
  intros c v E. eapply lookup_count; [reflexivity|vm_compute; lia| |rewrite erase_class; exact E].
  intros [r|] a n H; [apply free_ok in H; tauto|apply cret_inv in H; tauto].
Qed.
Print Assumptions C117_combining_class.
Theorem C117_canonical_decomposition : forall c v, canonical_decomposition_mapping_resolve c = Ok v ->
  exists n, canonical_decomposition_mapping_resolve_c c = Ok (v, n) /\ (n <= 12)%nat.
Proof.
  intros c v E. eapply lookup_count; [reflexivity| | |rewrite erase_canonical; exact E].
  - apply Nat.ltb_lt. vm_compute. reflexivity.
  - intros [r|] a n H; apply cret_inv in H; tauto.
Qed.
Print Assumptions C117_canonical_decomposition.
Theorem C117_compatibility_decomposition : forall c v, compatibility_and_canonical_decomposition_mapping_resolve c = Ok v ->
  exists n, compatibility_and_canonical_decomposition_mapping_resolve_c c = Ok (v, n) /\ (n <= 12)%nat.
Proof.
  intros c v E. eapply lookup_count; [reflexivity| | |rewrite erase_compat; exact E].
  - apply Nat.ltb_lt. vm_compute. reflexivity.
  - intros [r|] a n H; apply cret_inv in H; tauto.
Qed.
Print Assumptions C117_compatibility_decomposition.
Theorem C117_composition : forall a b v, canonical_composition_mapping_resolve a b = Ok v ->
  exists n, canonical_composition_mapping_resolve_c a b = Ok (v, n) /\ (n <= 10)%nat.
Proof.
  intros a b v E. eapply lookup_count; [reflexivity| | |rewrite erase_composition; exact E].
  - apply Nat.ltb_lt. vm_compute. reflexivity.
  - intros [r|] x n H; [|apply cret_inv in H; tauto]. apply cbind_ok in H. destruct H as (y & k1 & k2 & Y & H & ->).
    apply free_ok in Y. apply cret_inv in H. lia.
Qed.
Print Assumptions C117_composition.
Theorem C117_grapheme_break : forall c v, grapheme_cluster_break_resolve c = Ok v ->
  exists n, grapheme_cluster_break_resolve_c c = Ok (v, n) /\ (n <= 11)%nat.
Proof.
  intros c v E. eapply lookup_count; [reflexivity| | |rewrite erase_break; exact E].
  - apply Nat.ltb_lt. vm_compute. reflexivity.
  - intros [[[x y] z]|] a n H; apply cret_inv in H; tauto.
Qed.
Print Assumptions C117_grapheme_break.
(** No smaller numbers would do. *)
Example C117_bounds_are_reached :
  canonical_combining_class_resolve_c 0x300 = Ok (230, 10%nat) /\
  canonical_decomposition_mapping_resolve_c 0xC0 = Ok (Some [0x41; 0x300; 0], 12%nat) /\
  (exists row, compatibility_and_canonical_decomposition_mapping_resolve_c 0xA8 = Ok (Some row, 12%nat)) /\
  canonical_composition_mapping_resolve_c 0x3C 0x338 = Ok (Some 0x226E, 10%nat) /\
  grapheme_cluster_break_resolve_c 0 = Ok (G_CONTROL, 11%nat).
Proof. repeat split; try eexists; vm_compute; reflexivity. Qed.

(** std::sort of a codepoint string by combining class: at most [n * (7 * log2 n + 16)] calls of the comparator, whatever the
    string (the standard allows O(n log n)). *)
Theorem C117_sorting : forall l, exists l' k, sort_by_combining_class_c l = Ok (l', k) /\ sort_by_combining_class l = Ok l' /\
  (k <= length l * (7 * Nat.log2 (length l) + 16))%nat.
Proof.
  intros l. destruct (std_sort_cost _ ccc order_is_ccc _ one_order 0 (zlen l) l) as (l' & k & A & B & C); [unfold zlen; lia|lia|].
  exists l', k. split; [exact A|]. split; [exact B|]. rewrite Z.sub_0_r in C. unfold zlen in C.
  assert (LG : Z.log2 (Z.of_nat (length l)) = Z.of_nat (Nat.log2 (length l))).
  { destruct (length l) as [|n] eqn:EL; [reflexivity|]. rewrite <- EL. apply Z.log2_unique; [lia|]. pose proof (Nat.log2_spec (length l) ltac:(lia)) as (P & Q).
    rewrite <- Nat2Z.inj_succ, <- !(Nat2Z.inj_pow 2). split; lia. }
  rewrite LG in C. nia.
Qed.
Print Assumptions C117_sorting.

(** [n] comparisons exactly. *)
Definition sorts_in (n : nat) (l : list Z) : Prop := exists l', sort_by_combining_class_c l = Ok (l', n).
(** The last one uses up the depth limit of introsort, so that heap sort is called (a program with g++ 13.3 counts the same 284 and 629
    on the classes of these codepoints). *)
Example C117_sorting_examples :
  sort_by_combining_class_c [0x61; 0x301; 0x323; 0x62; 0x327] = Ok ([0x61; 0x62; 0x327; 0x323; 0x301], 13%nat) /\
  sorts_in 0 [] /\ sorts_in 0 [0x301] /\ sorts_in 30 (repeat 0x301 16) /\ sorts_in 284 (concat (repeat [0x301; 0x323; 0x61] 20)) /\
  sorts_in 629 [0x5c2; 0x334; 0xfb1e; 0x3099; 0x64b; 0x5b0; 0x64c; 0x5b2; 0x64d; 0x5b4; 0x618; 0x5b6; 0x619; 0x5b8; 0x61a; 0x5bb; 0x651; 0x5bd;
   0x652; 0x5c1; 0x670; 0x711; 0xc55; 0xc56; 0x61; 0x93c; 0x94d; 0x5b1; 0x5b3; 0x5b5; 0x5b7; 0x5b9; 0x5bc; 0x5bf; 0xe38; 0xe48;
   0xeb8; 0xec8; 0xf71; 0xf72; 0xf74; 0x321; 0x1dce; 0x31b; 0x302a; 0x316; 0x59a; 0x302e].
Proof. repeat split; try eexists; vm_compute; reflexivity. Qed.

(** ** C118: the whole run *)
Inductive form_of_w : ((list Z -> list Z) -> (list Z -> list Z -> res (list Z)) -> nat -> cp_ops -> Z * Z -> list Z -> res (Z * list Z)) ->
  (Z -> list Z -> Prop) ->
  ((list Z -> list Z -> res (list Z)) -> nat -> cp_ops -> Z * Z -> list Z -> counted (Z * list Z)) -> Prop :=
| form_w_d : form_of_w normalization_form_d listed_canonical normalization_form_d_w
| form_w_kd : form_of_w normalization_form_kd listed_compat normalization_form_kd_w
| form_w_c : form_of_w normalization_form_c listed_canonical normalization_form_c_w
| form_w_kc : form_of_w normalization_form_kc listed_compat normalization_form_kc_w.

Lemma erase_form_w F listed Fw append fuel ops p out : form_of_w F listed Fw ->
  erase (Fw append fuel ops p out) = F gnu_sort append fuel ops p out.
Proof. change gnu_sort with sorted_by_class. intros []; (apply erase_decomposed_w || apply erase_composed_w). Qed.

Theorem C118_counts_are_of_the_model : forall F listed Fw append ops b e fuel out,
  form_of_w F listed Fw ->
  erase (normalize_w fuel ops (Fw append fuel ops) b e out) = normalize fuel ops (F gnu_sort append fuel ops) b e out.
Proof. intros. apply erase_normalize_w. intros. eapply erase_form_w. eassumption. Qed.
Print Assumptions C118_counts_are_of_the_model.

(** What a grapheme that decomposes into [m] codepoints costs beside reading it. *)
Definition grapheme_cost (d : list Z) : nat := (length d * (14 * Nat.log2 (length d) + 35))%nat.
Definition sum (l : list nat) : nat := fold_right plus 0%nat l.

Lemma costs_eq listed full : (forall cs f, expands_all listed cs f <-> f = flat_map full cs) -> forall gs ds,
  Forall2 (fun g d => expands_all listed g d) gs ds -> map grapheme_cost ds = map (fun g => grapheme_work (length (flat_map full g))) gs.
Proof. intros DL gs ds H. induction H as [|g d gs ds H _ IH]; [reflexivity|]. cbn [map]. rewrite IH. apply DL in H. subst d. reflexivity. Qed.
Lemma sum_eq l : sum l = list_sum l.
Proof. reflexivity. Qed.

(** Into any output, on any text whose normalization ends. *)
Theorem C118_work : forall F listed Fw append ops b e cs gs ds fuel out r,
  form_of_w F listed Fw -> delimited_text ops b e cs -> segments pairwise_boundary cs gs ->
  Forall2 (fun g d => expands_all listed g d) gs ds -> (length cs < fuel)%nat ->
  normalize fuel ops (F gnu_sort append fuel ops) b e out = Ok r ->
  exists k, normalize_w fuel ops (Fw append fuel ops) b e out = Ok (r, k) /\
    (k <= 13 * length cs + 5 * length gs + 8 + sum (map grapheme_cost ds))%nat.
Proof.
  intros F listed Fw append ops b e cs gs ds fuel out r FW D S X Hf R. apply seg_eq in S. subst gs.
  destruct (text_of _ _ _ _ D) as (c & pos & inside & T & B). pose proof (ti_lawful _ _ _ _ _ _ _ T) as L. pose proof (text_n cs c) as Hn.
  assert (FD : exists full, (forall cs f, expands_all listed cs f <-> f = flat_map full cs) /\
    forall p q i j out r k, (i <= j <= length cs)%nat -> inside i p -> inside j q -> Fw append fuel ops (p, q) out = Ok (r, k) ->
      (k <= 4 * (j - i) + 1 + grapheme_work (length (flat_map full (sub (cs ++ [c]) i j))))%nat).
  { destruct FW; eexists; (split; [eapply data_listed; constructor|]); intros p q i j out0 r0 k Hij Hp Hq H.
    - eapply (decomposed_work ops (cs ++ [c]) pos inside L (length cs) Hn); try eassumption. apply canonical_decomposition_eq.
    - eapply (decomposed_work ops (cs ++ [c]) pos inside L (length cs) Hn); try eassumption. apply compat_decomposition_eq.
    - eapply (composed_work ops (cs ++ [c]) pos inside L (length cs) Hn); try eassumption. apply canonical_decomposition_eq.
    - eapply (composed_work ops (cs ++ [c]) pos inside L (length cs) Hn); try eassumption. apply compat_decomposition_eq. }
  destruct FD as (full & DL & OW). rewrite (costs_eq listed full DL _ _ X), sum_eq.
  apply (normalize_work ops b e cs c pos inside T B (Fw append fuel ops) (F gnu_sort append fuel ops) 4 1 _ fuel out r); try assumption.
  intros. eapply erase_form_w. eassumption.
Qed.
Print Assumptions C118_work.

(** O(n log n) in the number of codepoints, whatever the text. *)
Lemma expansion_length F listed Fw g d : form_of_w F listed Fw -> expands_all listed g d -> (length d <= 7 * length g)%nat.
Proof.
  intros FW H. assert (FD : exists k full, form_data F listed k full /\ forall c, zlen (full c) <= 7).
  { destruct FW; eexists _, _; (split; [constructor|]); intros c; pose proof (canonical_bound c); pose proof (compat_bound c); lia. }
  destruct FD as (k & full & FD & BD). apply (data_listed F listed k full FD) in H. subst d.
  induction g as [|x g IH]; [cbn; lia|]. cbn [flat_map length]. rewrite app_length. specialize (BD x). unfold zlen in BD. lia.
Qed.
Lemma cost_mono d N : (length d <= N)%nat -> (grapheme_cost d <= length d * (14 * Nat.log2 N + 35))%nat.
Proof. intros H. unfold grapheme_cost. pose proof (Nat.log2_le_mono _ _ H). nia. Qed.
Lemma costs_bound F listed Fw N : form_of_w F listed Fw -> forall gs ds, Forall2 (fun g d => expands_all listed g d) gs ds ->
  (forall g, In g gs -> (7 * length g <= N)%nat) -> (sum (map grapheme_cost ds) <= 7 * length (concat gs) * (14 * Nat.log2 N + 35))%nat.
Proof.
  intros FW gs ds H. induction H as [|g d gs ds H _ IH]; intros M; [cbn; lia|]. cbn [map sum fold_right concat]. fold (sum (map grapheme_cost ds)).
  rewrite app_length. specialize (IH (fun g I => M g (or_intror I))). specialize (M g (or_introl eq_refl)).
  pose proof (expansion_length _ _ _ _ _ FW H) as EL. pose proof (cost_mono d N ltac:(lia)). nia.
Qed.
Lemma piece_length (gs : list (list Z)) g : In g gs -> (length g <= length (concat gs))%nat.
Proof. induction gs as [|h gs IH]; intros []; cbn [concat]; rewrite app_length; [subst; lia|]. specialize (IH H). lia. Qed.
Lemma expansions F listed Fw gs : form_of_w F listed Fw -> exists ds, Forall2 (fun g d => expands_all listed g d) gs ds.
Proof.
  intros FW. assert (FD : exists k full, form_data F listed k full) by (destruct FW; eexists _, _; constructor). destruct FD as (k & full & FD).
  exists (map (flat_map full) gs). induction gs as [|g gs IH]; constructor; [|exact IH]. apply (data_listed F listed k full FD). reflexivity.
Qed.
Theorem C118_n_log_n : forall F listed Fw append ops b e cs fuel out r,
  form_of_w F listed Fw -> delimited_text ops b e cs -> (length cs < fuel)%nat ->
  normalize fuel ops (F gnu_sort append fuel ops) b e out = Ok r ->
  exists k, normalize_w fuel ops (Fw append fuel ops) b e out = Ok (r, k) /\
    (k <= length cs * (98 * Nat.log2 (7 * length cs) + 263) + 8)%nat.
Proof.
  intros F listed Fw append ops b e cs fuel out r FW D Hf R. destruct (expansions F listed Fw (seg cs) FW) as (ds & X).
  destruct (C118_work _ _ _ _ _ _ _ _ _ _ _ _ _ FW D (seg_segments cs) X Hf R) as (k & E & K). exists k. split; [exact E|].
  pose proof (costs_bound _ _ _ (7 * length cs) FW _ _ X) as CB. rewrite seg_concat in CB.
  specialize (CB (fun g I => Nat.mul_le_mono_l _ _ 7 (Nat.le_trans _ _ _ (piece_length _ _ I) ltac:(rewrite seg_concat; reflexivity)))).
  pose proof (seg_length cs). nia.
Qed.
Print Assumptions C118_n_log_n.

(** Linear, when no grapheme has more than [M] codepoints: [M = 5] gives 718 operations for each codepoint. *)
Theorem C118_linear_for_short_graphemes : forall F listed Fw append ops b e cs gs M fuel out r,
  form_of_w F listed Fw -> delimited_text ops b e cs -> segments pairwise_boundary cs gs -> (forall g, In g gs -> (length g <= M)%nat) ->
  (length cs < fuel)%nat -> normalize fuel ops (F gnu_sort append fuel ops) b e out = Ok r ->
  exists k, normalize_w fuel ops (Fw append fuel ops) b e out = Ok (r, k) /\
    (k <= length cs * (98 * Nat.log2 (7 * M) + 263) + 8)%nat.
Proof.
  intros F listed Fw append ops b e cs gs M fuel out r FW D S HM Hf R. destruct (expansions F listed Fw gs FW) as (ds & X).
  destruct (C118_work _ _ _ _ _ _ _ _ _ _ _ _ _ FW D S X Hf R) as (k & E & K). exists k. split; [exact E|].
  apply seg_eq in S. subst gs.
  pose proof (costs_bound _ _ _ (7 * M) FW _ _ X (fun g I => Nat.mul_le_mono_l _ _ 7 (HM g I))) as CB. rewrite seg_concat in CB.
  pose proof (seg_length cs). nia.
Qed.
Print Assumptions C118_linear_for_short_graphemes.

(** To a UTF-32 output it does end, when the sum it returns fits an int. *)
Theorem C118_to_utf32 : forall F listed Fw ops b e cs fuel out,
  form_of_w F listed Fw -> delimited_text ops b e cs -> (length cs < fuel)%nat -> count_fits listed cs ->
  exists r k, normalize_w fuel ops (Fw utf32_append_from_utf32ne fuel ops) b e out = Ok (r, k) /\
    (k <= length cs * (98 * Nat.log2 (7 * length cs) + 263) + 8)%nat.
Proof.
  intros F listed Fw ops b e cs fuel out FW D Hf CF.
  assert (FD : exists k full, form_data F listed k full) by (destruct FW; eexists _, _; constructor). destruct FD as (kf & full & FD).
  pose proof (run_any32 F listed kf full gnu_sort ops b e cs fuel out FD C58_an_allowed_sort D Hf CF) as R. cbv zeta in R.
  destruct (C118_n_log_n _ _ _ _ _ _ _ _ _ _ _ FW D Hf R) as (k & E & K). eexists _, k. split; eassumption.
Qed.
Print Assumptions C118_to_utf32.

(** The exact work of the four forms on "é" and "e" with two marks out of order, in UTF-32. *)
Example C118_examples :
  let ops := utf32_ops [0xE9; 0x65; 0x301; 0x323; 0] in
  normalize_w 6 ops (normalization_form_c_w utf32_append_from_utf32ne 6 ops) 0 4 [] = Ok ((3, [0xE9; 0x1EB9; 0x301]), 95%nat) /\
  normalize_w 6 ops (normalization_form_d_w utf32_append_from_utf32ne 6 ops) 0 4 [] = Ok ((5, [0x65; 0x301; 0x65; 0x323; 0x301]), 94%nat) /\
  normalize_w 6 ops (normalization_form_kd_w utf32_append_from_utf32ne 6 ops) 0 4 [] = Ok ((5, [0x65; 0x301; 0x65; 0x323; 0x301]), 94%nat) /\
  normalize_w 6 ops (normalization_form_kc_w utf32_append_from_utf32ne 6 ops) 0 4 [] = Ok ((3, [0xE9; 0x1EB9; 0x301]), 95%nat).
Proof. repeat split; vm_compute; reflexivity. Qed.
(** The hypotheses of [C118_work] met: two long graphemes, the first with a codepoint that decomposes. *)
Example C118_long_graphemes :
  let cs := 0xE9 :: repeat 0x316 20 ++ 0x62 :: repeat 0x301 20 in let ops := utf32_ops (string_buffer cs) in
  let gs := [0xE9 :: repeat 0x316 20; 0x62 :: repeat 0x301 20] in let ds := [0x65 :: 0x301 :: repeat 0x316 20; 0x62 :: repeat 0x301 20] in
  delimited_text ops 0 42 cs /\ segments pairwise_boundary cs gs /\ Forall2 (fun g d => expands_all listed_canonical g d) gs ds /\
  (13 * 42 + 5 * 2 + 8 + sum (map grapheme_cost ds) = 564 + (22 * 91 + 21 * 91))%nat /\
  exists out, normalize_w 100 ops (normalization_form_d_w utf32_append_from_utf32ne 100 ops) 0 42 [] = Ok (43, out, 888%nat).
Proof.
  cbv zeta. split; [eapply delimited_string; constructor|].
  split; [replace [0xE9 :: repeat 0x316 20; 0x62 :: repeat 0x301 20] with (seg (0xE9 :: repeat 0x316 20 ++ 0x62 :: repeat 0x301 20)) by (vm_compute; reflexivity); apply seg_segments|].
  split; [repeat constructor; apply canonical_listed; vm_compute; reflexivity|]. split; [vm_compute; reflexivity|]. eexists. vm_compute. reflexivity.
Qed.
