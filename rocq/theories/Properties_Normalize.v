(** * Properties C35 (texts), C44-C57: filter, decomposition, composition, normalization

    Reading guide.  [normalize fuel ops (normalization_form_X sort append fuel ops) b e out]
    is [filter(s.grapheme_begin(), s.grapheme_end(), out, normalization_form_X)] for a text
    [s] in memory; the answer is [Ok (return value, new contents of out)].  [append] is the
    append_from_utf32ne of the output encoding, [sort] what std::sort does.
    [delimited_text ops b e cs] (TextSpec.v): [b, e) is a utf8 or utf32ne string with text
    [cs], or a view of it in front of a grapheme boundary.
    [nfd], [nfc], [nfkd], [nfkc], [marks_last], [fully_composed], ...: NormSpec.v.
    [count_fits listed cs]: the number of codepoints of the decomposition fits in an int
    (otherwise the counter of filter overflows).
    [segments pairwise_boundary cs gs]: [gs] are the graphemes of [cs] (C37, C39). *)
From Coq Require Import Permutation Sorted Relations.
From Verif Require Import Prelude DataTables UcdTables PropsModel Utf8Model TextModel Utf8Spec UnicodeSpec GraphemeSpec TextSpec NormSpec FilterSpec
  PropsProofs LawfulProofs DecompTables DecompProofs GraphemeProofs Uax29Proofs GraphemeText FilterProofs OrderProofs ComposeProofs
  NormData HangulProofs NormProofs NfcProofs NormForms EncodeProofs EncodeText NormUtf8 NormText.
Require Import ZifyBool ZifyNat.

(** The four forms and the mappings each expands. *)
Inductive form_of : ((list Z -> list Z) -> (list Z -> list Z -> res (list Z)) -> nat -> cp_ops ->
    Z * Z -> list Z -> res (Z * list Z)) -> (Z -> list Z -> Prop) -> Prop :=
| form_d : form_of normalization_form_d listed_canonical
| form_kd : form_of normalization_form_kd listed_compat
| form_c : form_of normalization_form_c listed_canonical
| form_kc : form_of normalization_form_kc listed_compat.

(** ** C44.  filter over a range with elements [xs] succeeds with [s] and [out'] exactly
    when calling the operation on each element in order does, [s] is the sum of the
    results, and no partial sum leaves int (signed overflow). *)
Theorem C44_filter : forall (It Elem Out : Type) neq deref inc (operation : Elem -> Out -> res (Z * Out))
    (from to : It) xs out fuel s out',
  range_of neq deref inc from to xs -> (length xs < fuel)%nat ->
  (filter fuel neq deref inc operation from to out = Ok (s, out') <->
   exists ns, calls operation xs out ns out' /\ s = zsum ns /\
     forall k, (0 < k <= length ns)%nat -> - 2 ^ 31 <= zsum (firstn k ns) <= 2 ^ 31 - 1).
Proof. intros. apply filter_loop_spec; assumption. Qed.
Print Assumptions C44_filter.
Example C44_example : (* sum of the results of 3 calls over the utf32 text 5 6 7 *)
  range_of (op_neq (utf32_ops [5; 6; 7; 0])) (op_deref (utf32_ops [5; 6; 7; 0])) (op_inc (utf32_ops [5; 6; 7; 0])) 0 3 [5; 6; 7] /\
  filter_codepoints 4 (utf32_ops [5; 6; 7; 0]) (fun c (out : list Z) => Ok (c, c :: out)) 0 3 [] = Ok (18, [7; 6; 5]).
Proof.
  split; [|vm_compute; reflexivity].
  eapply range_more; [vm_compute; reflexivity..|]. eapply range_more; [vm_compute; reflexivity..|].
  eapply range_more; [vm_compute; reflexivity..|]. apply range_end. vm_compute. reflexivity.
Qed.

(** ** C45.  Over any part [i, j) of a text in memory. *)
Theorem C45_decomposition_filter : forall ops b e cs c pos i j out fuel d,
  view_in_memory ops b e cs c pos \/ string_in_memory ops b e cs pos ->
  (i <= j <= length cs)%nat -> (length cs < fuel)%nat ->
  let part := firstn (j - i) (skipn i cs) in
  (expands_all listed_canonical part d -> zlen d <= 2 ^ 31 - 1 ->
   filter_codepoints fuel ops canonical_decomposition (pos i) (pos j) out = Ok (zlen d, out ++ d)) /\
  (expands_all listed_compat part d -> zlen d <= 2 ^ 31 - 1 ->
   filter_codepoints fuel ops compatibility_and_canonical_decomposition (pos i) (pos j) out = Ok (zlen d, out ++ d)).
Proof.
  intros ops b e cs c pos i j out fuel d H Hij Hf. cbv zeta.
  assert (T : exists c' pos' inside, text_in ops b e cs c' pos' inside /\ forall i, (i <= length cs)%nat -> pos' i = pos i).
  { destruct H as [V|S]; [destruct (view_text _ _ _ _ _ _ V) as (p & q & T & P)|destruct (string_text _ _ _ _ _ S) as (p & q & T & P)]; eauto. }
  destruct T as (c' & pos' & inside & T & P).
  assert (Dl : delimits (cs ++ [c']) pos' (length cs) (pos i, pos j) (sub cs i j)).
  { exists i, j. rewrite !P by lia. split; [reflexivity|]. split; [assumption|].
    unfold sub. rewrite skipn_app, firstn_app, skipn_length.
    replace (j - i - (length cs - i))%nat with 0%nat by lia. cbn [firstn]. rewrite app_nil_r. reflexivity. }
  fold (sub cs i j). change (2 ^ 31 - 1) with int_max.
  split; intros E Hd.
  - apply canonical_listed in E. subst d.
    exact (codepoint_filter_ok ops _ pos' inside (ti_lawful _ _ _ _ _ _ _ T) (length cs) (text_n cs c') e
      canonical_decomposition full_canonical (pos i, pos j) (sub cs i j) out fuel canonical_decomposition_eq Dl Hf Hd).
  - apply compat_listed in E. subst d.
    exact (codepoint_filter_ok ops _ pos' inside (ti_lawful _ _ _ _ _ _ _ T) (length cs) (text_n cs c') e
      compatibility_and_canonical_decomposition full_compat (pos i, pos j) (sub cs i j) out fuel compat_decomposition_eq Dl Hf Hd).
Qed.
Print Assumptions C45_decomposition_filter.
(** Such an expansion always exists and is unique. *)
Theorem C45_decomposition_exists : forall l,
  (exists d, expands_all listed_canonical l d /\ forall d', expands_all listed_canonical l d' -> d' = d) /\
  (exists d, expands_all listed_compat l d /\ forall d', expands_all listed_compat l d' -> d' = d).
Proof.
  intros l. split; eexists; (split; [|intros d']).
  - apply canonical_listed. reflexivity.
  - apply canonical_listed.
  - apply compat_listed. reflexivity.
  - apply compat_listed.
Qed.
Print Assumptions C45_decomposition_exists.
Example C45_example : (* U+1E69 (s, dot below, dot above), U+0041 *)
  filter_codepoints 3 (utf32_ops [0x1E69; 0x41; 0]) canonical_decomposition 0 2 [0x3E]
  = Ok (4, [0x3E; 0x73; 0x323; 0x307; 0x41]).
Proof. vm_compute. reflexivity. Qed.

(** ** C46 *)
Theorem C46_composition_in_place : forall data count,
  exists kept rest,
    canonical_composition data count = Ok (kept ++ rest, zlen kept, count + (zlen data - zlen kept)) /\
    length (kept ++ rest) = length data /\
    greedy data kept /\
    (forall x a b y c, kept = x ++ a :: b :: y -> ~ primary_composite a b c).
Proof.
  intros data count. destruct (canonical_composition_ok data count) as (rest & E & LN). exists (compose data), rest.
  split; [assumption|]. split; [assumption|]. split; [apply compose_greedy|].
  intros x a b y c EQ P. apply comp_spec in P. rewrite (compose_adjacent data x a b y EQ) in P. discriminate.
Qed.
Print Assumptions C46_composition_in_place.
(** The greedy composition is a function of the string. *)
Theorem C46_greedy_composition_is_unique : forall data kept kept', greedy data kept -> greedy data kept' -> kept = kept'.
Proof. intros data kept kept' G G'. apply greedy_compose_eq in G, G'. congruence. Qed.
Print Assumptions C46_greedy_composition_is_unique.
Example C46_example : (* s, dot below, dot above, x, acute *)
  canonical_composition [0x73; 0x323; 0x307; 0x78; 0x301] 7 = Ok ([0x1E69; 0x78; 0x301; 0x78; 0x301], 3, 9).
Proof. vm_compute. reflexivity. Qed.

(** ** C35 for texts: composing does not change what the text decomposes to. *)
Theorem C35_composing_keeps_the_decomposition : forall l u d, greedy l u ->
  (expands_all listed_canonical u d <-> expands_all listed_canonical l d) /\
  (expands_all listed_compat u d <-> expands_all listed_compat l d).
Proof.
  intros l u d G. apply greedy_compose_eq in G. subst u.
  rewrite !canonical_listed, !compat_listed, canonical_compose, compat_compose. split; reflexivity.
Qed.
Print Assumptions C35_composing_keeps_the_decomposition.

(** ** C47 *)
Theorem C47_form_d_contents : forall sort ops b e cs fuel out,
  std_sort_ok sort -> delimited_text ops b e cs -> (length cs < fuel)%nat -> count_fits listed_canonical cs ->
  exists gs ds, segments pairwise_boundary cs gs /\
    Forall2 (decomposed_grapheme listed_canonical) gs ds /\
    normalize fuel ops (normalization_form_d sort utf32_append_from_utf32ne fuel ops) b e out
    = Ok (zlen (concat ds), out ++ concat ds).
Proof.
  intros sort ops b e cs fuel out SO D Hf CF. exists (seg cs), (d_pieces full_canonical sort cs).
  split; [apply seg_segments|]. split; [apply d_pieces_ok; [apply canonical_listed|assumption]|].
  exact (run_d32 _ _ _ canonical_decomposition_eq canonical_listed sort SO _ _ _ _ D fuel Hf CF out).
Qed.
Print Assumptions C47_form_d_contents.
Theorem C47_form_kd_contents : forall sort ops b e cs fuel out,
  std_sort_ok sort -> delimited_text ops b e cs -> (length cs < fuel)%nat -> count_fits listed_compat cs ->
  exists gs ds, segments pairwise_boundary cs gs /\
    Forall2 (decomposed_grapheme listed_compat) gs ds /\
    normalize fuel ops (normalization_form_kd sort utf32_append_from_utf32ne fuel ops) b e out
    = Ok (zlen (concat ds), out ++ concat ds).
Proof.
  intros sort ops b e cs fuel out SO D Hf CF. exists (seg cs), (d_pieces full_compat sort cs).
  split; [apply seg_segments|]. split; [apply d_pieces_ok; [apply compat_listed|assumption]|].
  exact (run_d32 _ _ _ compat_decomposition_eq compat_listed sort SO _ _ _ _ D fuel Hf CF out).
Qed.
Print Assumptions C47_form_kd_contents.
(** The hypotheses are met: an allowed (even stable) sort, and a text. *)
Theorem C47_an_allowed_sort_exists : exists sort, std_sort_ok sort /\ stable sort.
Proof. exists isort. split; [exact isort_std|exact isort_stable]. Qed.
Print Assumptions C47_an_allowed_sort_exists.
Example C47_example : (* q, dot above, dot below; U+1E69 *)
  let cs := [0x71; 0x307; 0x323; 0x1E69] in
  delimited_text (utf8_ops (string_buffer (utf8_text cs))) 0 (zlen (utf8_text cs)) cs /\
  normalize 5 (utf8_ops (string_buffer (utf8_text cs)))
    (normalization_form_d isort utf32_append_from_utf32ne 5 (utf8_ops (string_buffer (utf8_text cs)))) 0 (zlen (utf8_text cs)) [0x3E]
  = Ok (6, [0x3E; 0x71; 0x323; 0x307; 0x73; 0x323; 0x307]).
Proof.
  split; [|vm_compute; reflexivity]. eapply delimited_string. constructor. repeat constructor; unfold codepoint31; lia.
Qed.

(** ** C48 *)
Theorem C48_form_c_contents : forall sort ops b e cs fuel out,
  std_sort_ok sort -> delimited_text ops b e cs -> (length cs < fuel)%nat -> count_fits listed_canonical cs ->
  exists gs ds us, segments pairwise_boundary cs gs /\
    Forall2 (decomposed_grapheme listed_canonical) gs ds /\
    normalize fuel ops (normalization_form_d sort utf32_append_from_utf32ne fuel ops) b e out
    = Ok (zlen (concat ds), out ++ concat ds) /\
    Forall2 (composed_grapheme listed_canonical) ds us /\
    normalize fuel ops (normalization_form_c sort utf32_append_from_utf32ne fuel ops) b e out
    = Ok (zlen (concat us), out ++ concat us).
Proof.
  intros sort ops b e cs fuel out SO D Hf CF.
  exists (seg cs), (d_pieces full_canonical sort cs), (c_pieces full_canonical sort cs).
  split; [apply seg_segments|]. split; [apply d_pieces_ok; [apply canonical_listed|assumption]|].
  split; [exact (run_d32 _ _ _ canonical_decomposition_eq canonical_listed sort SO _ _ _ _ D fuel Hf CF out)|].
  split; [exact (c_pieces_ok _ _ canonical_listed sort SO cs full_canonical_fix canonical_compose)|].
  exact (run_c32 _ _ _ canonical_decomposition_eq canonical_listed sort SO _ _ _ _ D fuel Hf CF out).
Qed.
Print Assumptions C48_form_c_contents.
Theorem C48_form_kc_contents : forall sort ops b e cs fuel out,
  std_sort_ok sort -> delimited_text ops b e cs -> (length cs < fuel)%nat -> count_fits listed_compat cs ->
  exists gs ds us, segments pairwise_boundary cs gs /\
    Forall2 (decomposed_grapheme listed_compat) gs ds /\
    normalize fuel ops (normalization_form_kd sort utf32_append_from_utf32ne fuel ops) b e out
    = Ok (zlen (concat ds), out ++ concat ds) /\
    Forall2 (composed_grapheme listed_compat) ds us /\
    normalize fuel ops (normalization_form_kc sort utf32_append_from_utf32ne fuel ops) b e out
    = Ok (zlen (concat us), out ++ concat us).
Proof.
  intros sort ops b e cs fuel out SO D Hf CF.
  exists (seg cs), (d_pieces full_compat sort cs), (c_pieces full_compat sort cs).
  split; [apply seg_segments|]. split; [apply d_pieces_ok; [apply compat_listed|assumption]|].
  split; [exact (run_d32 _ _ _ compat_decomposition_eq compat_listed sort SO _ _ _ _ D fuel Hf CF out)|].
  split; [exact (c_pieces_ok _ _ compat_listed sort SO cs full_compat_fix compat_compose)|].
  exact (run_c32 _ _ _ compat_decomposition_eq compat_listed sort SO _ _ _ _ D fuel Hf CF out).
Qed.
Print Assumptions C48_form_kc_contents.
Example C48_example : (* s, dot above, dot below -> U+1E69;  fi ligature (KC) -> f i *)
  normalize 4 (utf32_ops [0x73; 0x307; 0x323; 0])
    (normalization_form_c isort utf32_append_from_utf32ne 4 (utf32_ops [0x73; 0x307; 0x323; 0])) 0 3 [] = Ok (1, [0x1E69]) /\
  normalize 4 (utf32_ops [0xFB01; 0]) (normalization_form_kc isort utf32_append_from_utf32ne 4 (utf32_ops [0xFB01; 0])) 0 1 []
  = Ok (2, [0x66; 0x69]).
Proof. split; vm_compute; reflexivity. Qed.

(** ** C49.  False: a Hangul syllable is not decomposed, and a starter inside a grapheme
    is moved in front of the marks before it (a, acute, ZWJ). *)
Theorem C49_form_d_is_nfd_refuted : forall sort, std_sort_ok sort ->
  (exists n d, normalize 4 (utf32_ops [0xAC00; 0]) (normalization_form_d sort utf32_append_from_utf32ne 4 (utf32_ops [0xAC00; 0])) 0 1 []
     = Ok (n, d) /\ ~ nfd [0xAC00] d) /\
  (exists n d, normalize 4 (utf32_ops [0x61; 0x301; 0x200D; 0])
     (normalization_form_d sort utf32_append_from_utf32ne 4 (utf32_ops [0x61; 0x301; 0x200D; 0])) 0 3 []
     = Ok (n, d) /\ ~ nfd [0x61; 0x301; 0x200D] d).
Proof.
  intros sort SO. assert (X : forall cs, delimited_text (utf32_ops (string_buffer cs)) 0 (zlen cs) cs).
  { intros cs. eapply delimited_string. constructor. }
  split.
  - eexists _, _. split.
    + apply (run_d32 listed_canonical full_canonical _ canonical_decomposition_eq canonical_listed sort SO _ _ _ [0xAC00] (X _) 4); [cbn; lia|].
      eexists. split; [apply canonical_listed; reflexivity|vm_compute; discriminate].
    + intros N. apply (d_pieces_standard_iff full_canonical canonical_mapping full_canonical_ne canonical_head canonical_control
        (fun _ _ H => H) canonical_text_expands sort SO) in N. destruct N as [N _].
      apply (proj1 (unmapped_canonical_iff [0xAC00])) with (s := 0xAC00) in N; [apply N; unfold hangul_syllable, SBase; lia|left; reflexivity].
  - eexists _, _. split.
    + apply (run_d32 listed_canonical full_canonical _ canonical_decomposition_eq canonical_listed sort SO _ _ _ [0x61; 0x301; 0x200D] (X _) 4); [cbn; lia|].
      eexists. split; [apply canonical_listed; reflexivity|vm_compute; discriminate].
    + intros N. apply (d_pieces_standard_iff full_canonical canonical_mapping full_canonical_ne canonical_head canonical_control
        (fun _ _ H => H) canonical_text_expands sort SO) in N. destruct N as [_ N].
      assert (G : In [0x61; 0x301; 0x200D] (seg [0x61; 0x301; 0x200D])) by (vm_compute; left; reflexivity).
      destruct (N _ G) as [ML _].
      assert (F : flat_map full_canonical [0x61; 0x301; 0x200D] = [0x61; 0x301; 0x200D]) by (vm_compute; reflexivity).
      rewrite F in ML. apply (ML [0x61] 0x301 [] 0x200D [] eq_refl).
      * rewrite has_ccc_eq. vm_compute. discriminate.
      * rewrite has_ccc_eq. vm_compute. reflexivity.
Qed.
Print Assumptions C49_form_d_is_nfd_refuted.
(** Exactly when form D is NFD: no Hangul syllables, no starter after a mark in the
    decomposition of a grapheme, and the sort keeps the order of equal classes there. *)
Theorem C49_form_d_is_nfd_iff_partial : forall sort ops b e cs gs fuel out,
  std_sort_ok sort -> delimited_text ops b e cs -> (length cs < fuel)%nat -> count_fits listed_canonical cs ->
  segments pairwise_boundary cs gs ->
  exists n d,
    normalize fuel ops (normalization_form_d sort utf32_append_from_utf32ne fuel ops) b e out = Ok (n, out ++ d) /\
    (nfd cs d <->
     (forall s, In s cs -> ~ hangul_syllable s) /\ graphemes_marks_last listed_canonical gs /\ ties_kept sort listed_canonical gs).
Proof.
  intros sort ops b e cs gs fuel out SO D Hf CF S. apply seg_eq in S. subst gs. eexists _, _.
  split; [exact (run_d32 _ _ _ canonical_decomposition_eq canonical_listed sort SO _ _ _ _ D fuel Hf CF out)|].
  rewrite nfd_nf, (d_pieces_standard_iff full_canonical canonical_mapping full_canonical_ne canonical_head canonical_control
        (fun _ _ H => H) canonical_text_expands sort SO).
  rewrite unmapped_canonical_iff, (marks_last_listed _ _ _ canonical_listed). unfold ties_kept. split.
  - intros [A B]. split; [assumption|]. split; [intros g I; apply B; assumption|].
    intros g f I E. apply canonical_listed in E. subst f. apply B. assumption.
  - intros (A & B & C). split; [assumption|]. intros g I. split; [auto|]. apply (C g); [assumption|]. apply canonical_listed. reflexivity.
Qed.
Print Assumptions C49_form_d_is_nfd_iff_partial.
Example C49_example : (* the condition holds for q dot-above dot-below e-acute, and the output is its NFD *)
  let cs := [0x71; 0x307; 0x323; 0xE9] in
  (forall s, In s cs -> ~ hangul_syllable s) /\ segments pairwise_boundary cs [[0x71; 0x307; 0x323]; [0xE9]] /\
  graphemes_marks_last listed_canonical [[0x71; 0x307; 0x323]; [0xE9]] /\
  nfd cs [0x71; 0x323; 0x307; 0x65; 0x301].
Proof.
  cbv zeta. assert (S : segments pairwise_boundary [0x71; 0x307; 0x323; 0xE9] [[0x71; 0x307; 0x323]; [0xE9]]).
  { replace [[0x71; 0x307; 0x323]; [0xE9]] with (seg [0x71; 0x307; 0x323; 0xE9]) by (vm_compute; reflexivity). apply seg_segments. }
  split; [|split; [assumption|]].
  - intros s I H. unfold hangul_syllable, SBase in H. cbn [In] in I. lia.
  - assert (N : nfd [0x71; 0x307; 0x323; 0xE9] [0x71; 0x323; 0x307; 0x65; 0x301]) by (apply nfd_eq; vm_compute; reflexivity).
    split; [|assumption]. pose proof N as N'.
    replace [0x71; 0x323; 0x307; 0x65; 0x301] with (form_d_of full_canonical [0x71; 0x307; 0x323; 0xE9]) in N' by (vm_compute; reflexivity).
    apply form_d_nfd_iff in N'. destruct N' as [_ N']. apply (marks_last_listed _ _ _ canonical_listed).
    intros g I. apply marks_last_iff. apply N'. apply seg_eq in S. rewrite <- S. assumption.
Qed.

(** ** C50.  False: in a, grave below, acute the acute does not reach the a it should
    compose with; and Hangul jamo are not composed. *)
Lemma canonical_c_standard cs : nfc cs (form_c_of full_canonical cs) <->
  (forall g, In g (seg cs) -> marks_last (flat_map full_canonical g)) /\ fully_composed (form_c_of full_canonical cs).
Proof.
  pose proof (form_c_standard_iff full_canonical canonical_mapping full_canonical_ne canonical_head canonical_control canonical_plain
    (fun _ _ H => H) canonical_text_expands cs) as H.
  unfold nfc. rewrite (H : _ <-> _). split; [intros (_ & A); exact A|]. intros A. split; [apply canonical_settled|exact A].
Qed.
Lemma compat_c_standard cs : nfkc cs (form_c_of full_compat cs) <->
  settled_text full_compat compatibility_mapping cs /\
  (forall g, In g (seg cs) -> marks_last (flat_map full_compat g)) /\ fully_composed (form_c_of full_compat cs).
Proof.
  exact (form_c_standard_iff full_compat compatibility_mapping full_compat_ne compat_head compat_control compat_plain
    compatibility_of_canonical compat_text_expands cs).
Qed.
Theorem C50_form_c_is_nfc_refuted :
  (normalize 4 (utf32_ops [0x61; 0x316; 0x301; 0]) (normalization_form_c isort utf32_append_from_utf32ne 4 (utf32_ops [0x61; 0x316; 0x301; 0])) 0 3 []
   = Ok (3, [0x61; 0x316; 0x301]) /\ nfc [0x61; 0x316; 0x301] [0xE1; 0x316] /\ ~ nfc [0x61; 0x316; 0x301] [0x61; 0x316; 0x301]) /\
  (normalize 3 (utf32_ops [0x1100; 0x1161; 0]) (normalization_form_c isort utf32_append_from_utf32ne 3 (utf32_ops [0x1100; 0x1161; 0])) 0 2 []
   = Ok (2, [0x1100; 0x1161]) /\ nfc [0x1100; 0x1161] [0xAC00] /\ ~ nfc [0x1100; 0x1161] [0x1100; 0x1161]).
Proof.
  assert (H : forall d, composes 0x1100 0x1161 d <-> d = 0xAC00).
  { intros d. split.
    - intros C. apply composes_cases in C as C'. destruct C as [P|[S E]].
      + apply comp_spec in P. vm_compute in P. discriminate.
      + cbv zeta in E. unfold hangul_syllable in S. destruct (Z.eqb_spec ((d - SBase) mod 28) 0) as [Z0|Z0].
        * apply pair_eq in E. unfold SBase, LBase, VBase in *. destruct E as [E1 E2].
          pose proof (Z.div_mod (d - 44032) 588 ltac:(lia)). pose proof (Z.mod_pos_bound (d - 44032) 588 ltac:(lia)).
          pose proof (Z.div_mod ((d - 44032) mod 588) 28 ltac:(lia)).
          assert (M2 : ((d - 44032) mod 588) mod 28 = 0).
          { rewrite <- Z0. symmetry. rewrite (Z.div_mod (d - 44032) 588) at 1 by lia.
            replace (588 * ((d - 44032) / 588)) with ((21 * ((d - 44032) / 588)) * 28) by lia.
            rewrite Z.add_comm, Z.mod_add by lia. reflexivity. }
          lia.
        * apply pair_eq in E. unfold SBase in *. destruct E as [E1 _].
          pose proof (Z.div_pos (d - 44032) 28 ltac:(lia) ltac:(lia)). lia.
    - intros ->. right. split; [unfold hangul_syllable, SBase; lia|vm_compute; reflexivity]. }
  split; (split; [vm_compute; reflexivity|split]).
  - exists [0x61; 0x316; 0x301]. split; [apply nfd_eq; vm_compute; reflexivity|].
    apply ct_starter; [apply has_ccc_eq; vm_compute; reflexivity|].
    apply cf_keep; [right|rewrite has_ccc_eq; vm_compute; discriminate|].
    + intros d C. apply composes_mark in C; vm_compute in C; discriminate.
    + cbn [app]. apply (cf_join 0x61 [0x316] 0x301 [] [0xE1; 0x316] 0xE1).
      * rewrite blocked_iff. intros (b & [<-|[]] & B). vm_compute in B. destruct B as [B|B]; [discriminate|apply B; reflexivity].
      * left. apply comp_spec. vm_compute. reflexivity.
      * apply cf_end.
  - intros N. replace [0x61; 0x316; 0x301] with (form_c_of full_canonical [0x61; 0x316; 0x301]) in N at 2 by (vm_compute; reflexivity).
    apply canonical_c_standard in N. destruct N as [_ N].
    replace (form_c_of full_canonical [0x61; 0x316; 0x301]) with [0x61; 0x316; 0x301] in N by (vm_compute; reflexivity).
    apply (N [] 0x61 [0x316] 0x301 [] 0xE1 eq_refl).
    + rewrite blocked_iff. intros (b & [<-|[]] & B). vm_compute in B. destruct B as [B|B]; [discriminate|apply B; reflexivity].
    + left. apply comp_spec. vm_compute. reflexivity.
  - exists [0x1100; 0x1161]. split; [apply nfd_eq; vm_compute; reflexivity|].
    apply ct_starter; [apply has_ccc_eq; vm_compute; reflexivity|].
    eapply cf_join; [apply not_blocked_nil|apply H; reflexivity|]. apply cf_end.
  - intros N. replace [0x1100; 0x1161] with (form_c_of full_canonical [0x1100; 0x1161]) in N at 2 by (vm_compute; reflexivity).
    apply canonical_c_standard in N. destruct N as [_ N].
    replace (form_c_of full_canonical [0x1100; 0x1161]) with [0x1100; 0x1161] in N by (vm_compute; reflexivity).
    apply (N [] 0x1100 [] 0x1161 [] 0xAC00 eq_refl); [apply not_blocked_nil|]. apply H. reflexivity.
Qed.
Print Assumptions C50_form_c_is_nfc_refuted.
(** Exactly when form C is NFC (the sort keeping the order of equal classes): no starter
    after a mark in the decomposition of a grapheme, and nothing left to compose in the
    output. *)
Theorem C50_form_c_is_nfc_iff_partial : forall sort ops b e cs gs fuel out,
  std_sort_ok sort -> delimited_text ops b e cs -> (length cs < fuel)%nat -> count_fits listed_canonical cs ->
  segments pairwise_boundary cs gs -> ties_kept sort listed_canonical gs ->
  exists n u,
    normalize fuel ops (normalization_form_c sort utf32_append_from_utf32ne fuel ops) b e out = Ok (n, out ++ u) /\
    (nfc cs u <-> graphemes_marks_last listed_canonical gs /\ fully_composed u).
Proof.
  intros sort ops b e cs gs fuel out SO D Hf CF S K. apply seg_eq in S. subst gs. eexists _, _.
  split; [exact (run_c32 _ _ _ canonical_decomposition_eq canonical_listed sort SO _ _ _ _ D fuel Hf CF out)|].
  rewrite (c_pieces_eq _ _ canonical_listed sort SO cs K), canonical_c_standard, (marks_last_listed _ _ _ canonical_listed). reflexivity.
Qed.
Print Assumptions C50_form_c_is_nfc_iff_partial.
Example C50_example : (* s, dot above, dot below: the condition holds, the output is NFC *)
  nfc [0x73; 0x307; 0x323] [0x1E69] /\ fully_composed [0x1E69].
Proof.
  assert (FC : fully_composed [0x1E69]).
  { intros x l mid c y d E. exfalso. destruct x as [|? [|]], mid; cbn in E; discriminate. }
  split; [|assumption]. replace [0x1E69] with (form_c_of full_canonical [0x73; 0x307; 0x323]) by (vm_compute; reflexivity).
  apply canonical_c_standard. split.
  - intros g I. vm_compute in I. destruct I as [<-|[]]. apply marks_last_iff. apply sort_is_order_iff. vm_compute. reflexivity.
  - replace (form_c_of full_canonical [0x73; 0x307; 0x323]) with [0x1E69] by (vm_compute; reflexivity). assumption.
Qed.

(** ** C51.  False: "a, grave below, ZWJ" followed by a skin tone modifier; the first pass moves
    the ZWJ in front of the mark, which then joins the modifier to the grapheme, and
    the second pass moves the modifier. *)
Theorem C51_idempotent_refuted : forall F listed, form_of F listed ->
  normalize 5 (utf32_ops [0x61; 0x316; 0x200D; 0x1F3FB; 0])
    (F isort utf32_append_from_utf32ne 5%nat (utf32_ops [0x61; 0x316; 0x200D; 0x1F3FB; 0])) 0 4 []
  = Ok (4, [0x61; 0x200D; 0x316; 0x1F3FB]) /\
  normalize 5 (utf32_ops [0x61; 0x200D; 0x316; 0x1F3FB; 0])
    (F isort utf32_append_from_utf32ne 5%nat (utf32_ops [0x61; 0x200D; 0x316; 0x1F3FB; 0])) 0 4 []
  = Ok (4, [0x61; 0x200D; 0x1F3FB; 0x316]).
Proof. intros F listed []; split; vm_compute; reflexivity. Qed.
Print Assumptions C51_idempotent_refuted.
(** Exactly when a second pass changes nothing: no starter after a mark in the
    decomposition of a grapheme of the first output. *)
Theorem C51_idempotent_iff_partial : forall F listed sort ops b e cs gs fuel n u gs' fuel',
  form_of F listed -> std_sort_ok sort -> delimited_text ops b e cs -> (length cs < fuel)%nat -> count_fits listed cs ->
  segments pairwise_boundary cs gs -> ties_kept sort listed gs ->
  normalize fuel ops (F sort utf32_append_from_utf32ne fuel ops) b e [] = Ok (n, u) ->
  segments pairwise_boundary u gs' -> ties_kept sort listed gs' -> (length u < fuel')%nat ->
  exists n' u',
    normalize fuel' (utf32_ops (string_buffer u)) (F sort utf32_append_from_utf32ne fuel' (utf32_ops (string_buffer u))) 0 (zlen u) []
    = Ok (n', u') /\
    (u' = u <-> graphemes_marks_last listed gs').
Proof.
  intros F listed sort ops b e cs gs fuel n u gs' fuel' FO SO D Hf CF S K E S' K' Hf'.
  apply seg_eq in S, S'. subst gs gs'.
  assert (D' : delimited_text (utf32_ops (string_buffer u)) 0 (zlen u) u) by (eapply delimited_string; constructor).
  destruct FO.
  - unfold normalization_form_d in *.
    rewrite (run_d32 _ _ _ canonical_decomposition_eq canonical_listed sort SO _ _ _ _ D fuel Hf CF []) in E.
    cbn [app] in E. injection E as _ E. rewrite (d_pieces_eq _ _ canonical_listed sort SO cs K) in E.
    assert (CF' : count_fits listed_canonical u).
    { destruct CF as (f & X & L). apply canonical_listed in X. subst f u.
      eexists. split; [apply canonical_listed; reflexivity|]. rewrite (form_d_fix _ full_canonical_fix).
      rewrite <- (Permutation_length (form_d_perm full_canonical cs)). assumption. }
    eexists _, _. split; [exact (run_d32 _ _ _ canonical_decomposition_eq canonical_listed sort SO _ _ _ _ D' fuel' Hf' CF' [])|].
    cbn [app]. rewrite (d_pieces_eq _ _ canonical_listed sort SO u K'), (marks_last_listed _ _ _ canonical_listed). subst u.
    apply form_d_again_iff; [exact full_canonical_ne|exact canonical_head|exact canonical_control|exact full_canonical_fix].
  - unfold normalization_form_kd in *.
    rewrite (run_d32 _ _ _ compat_decomposition_eq compat_listed sort SO _ _ _ _ D fuel Hf CF []) in E.
    cbn [app] in E. injection E as _ E. rewrite (d_pieces_eq _ _ compat_listed sort SO cs K) in E.
    assert (CF' : count_fits listed_compat u).
    { destruct CF as (f & X & L). apply compat_listed in X. subst f u.
      eexists. split; [apply compat_listed; reflexivity|]. rewrite (form_d_fix _ full_compat_fix).
      rewrite <- (Permutation_length (form_d_perm full_compat cs)). assumption. }
    eexists _, _. split; [exact (run_d32 _ _ _ compat_decomposition_eq compat_listed sort SO _ _ _ _ D' fuel' Hf' CF' [])|].
    cbn [app]. rewrite (d_pieces_eq _ _ compat_listed sort SO u K'), (marks_last_listed _ _ _ compat_listed). subst u.
    apply form_d_again_iff; [exact full_compat_ne|exact compat_head|exact compat_control|exact full_compat_fix].
  - unfold normalization_form_c in *.
    rewrite (run_c32 _ _ _ canonical_decomposition_eq canonical_listed sort SO _ _ _ _ D fuel Hf CF []) in E.
    cbn [app] in E. injection E as _ E. rewrite (c_pieces_eq _ _ canonical_listed sort SO cs K) in E.
    assert (CF' : count_fits listed_canonical u).
    { destruct CF as (f & X & L). apply canonical_listed in X. subst f u.
      eexists. split; [apply canonical_listed; reflexivity|].
      rewrite (form_c_full _ full_canonical_ne canonical_head canonical_control full_canonical_fix canonical_compose).
      rewrite <- (Permutation_length (form_d_perm full_canonical cs)). assumption. }
    eexists _, _. split; [exact (run_c32 _ _ _ canonical_decomposition_eq canonical_listed sort SO _ _ _ _ D' fuel' Hf' CF' [])|].
    cbn [app]. rewrite (c_pieces_eq _ _ canonical_listed sort SO u K'), (marks_last_listed _ _ _ canonical_listed). subst u.
    apply form_c_again_iff; [exact full_canonical_ne|exact canonical_head|exact canonical_control|exact full_canonical_fix|exact canonical_compose].
  - unfold normalization_form_kc in *.
    rewrite (run_c32 _ _ _ compat_decomposition_eq compat_listed sort SO _ _ _ _ D fuel Hf CF []) in E.
    cbn [app] in E. injection E as _ E. rewrite (c_pieces_eq _ _ compat_listed sort SO cs K) in E.
    assert (CF' : count_fits listed_compat u).
    { destruct CF as (f & X & L). apply compat_listed in X. subst f u.
      eexists. split; [apply compat_listed; reflexivity|].
      rewrite (form_c_full _ full_compat_ne compat_head compat_control full_compat_fix compat_compose).
      rewrite <- (Permutation_length (form_d_perm full_compat cs)). assumption. }
    eexists _, _. split; [exact (run_c32 _ _ _ compat_decomposition_eq compat_listed sort SO _ _ _ _ D' fuel' Hf' CF' [])|].
    cbn [app]. rewrite (c_pieces_eq _ _ compat_listed sort SO u K'), (marks_last_listed _ _ _ compat_listed). subst u.
    apply form_c_again_iff; [exact full_compat_ne|exact compat_head|exact compat_control|exact full_compat_fix|exact compat_compose].
Qed.
Print Assumptions C51_idempotent_iff_partial.
Example C51_example : (* a text on which a second pass changes nothing *)
  normalize 5 (utf32_ops [0x73; 0x307; 0x323; 0xAC00; 0])
    (normalization_form_c isort utf32_append_from_utf32ne 5 (utf32_ops [0x73; 0x307; 0x323; 0xAC00; 0])) 0 4 [] = Ok (2, [0x1E69; 0xAC00]) /\
  normalize 5 (utf32_ops [0x1E69; 0xAC00; 0])
    (normalization_form_c isort utf32_append_from_utf32ne 5 (utf32_ops [0x1E69; 0xAC00; 0])) 0 2 [] = Ok (2, [0x1E69; 0xAC00]).
Proof. split; vm_compute; reflexivity. Qed.

(** ** C52.  Normalizing in UTF-8 is exactly: normalize the codepoints, then append the
    result with append_from_utf32ne; same count.  (Any failure of the one is the failure of
    the other.) *)
Theorem C52_utf8_is_encoded_utf32_partial : forall F listed sort cs fuel,
  form_of F listed -> std_sort_ok sort -> Forall codepoint31 cs -> (length cs < fuel)%nat -> count_fits listed cs ->
  let s8 := utf8_ops (string_buffer (utf8_text cs)) in
  let s32 := utf32_ops (string_buffer cs) in
  exists n d,
    normalize fuel s32 (F sort utf32_append_from_utf32ne fuel s32) 0 (zlen cs) [] = Ok (n, d) /\
    forall out, normalize fuel s8 (F sort utf8_append_from_utf32ne fuel s8) 0 (zlen (utf8_text cs)) out
      = let* out' := utf8_append_from_utf32ne out d in Ok (n, out').
Proof.
  intros F listed sort cs fuel FO SO C31 Hf CF s8 s32.
  assert (D8 : delimited_text s8 0 (zlen (utf8_text cs)) cs) by (eapply delimited_string; constructor; assumption).
  assert (D32 : delimited_text s32 0 (zlen cs) cs) by (eapply delimited_string; constructor).
  destruct FO; eexists _, _; split.
  - exact (run_d32 _ _ _ canonical_decomposition_eq canonical_listed sort SO _ _ _ _ D32 fuel Hf CF []).
  - exact (run_d8 _ _ _ canonical_decomposition_eq canonical_listed sort SO _ _ _ _ D8 fuel Hf CF).
  - exact (run_d32 _ _ _ compat_decomposition_eq compat_listed sort SO _ _ _ _ D32 fuel Hf CF []).
  - exact (run_d8 _ _ _ compat_decomposition_eq compat_listed sort SO _ _ _ _ D8 fuel Hf CF).
  - exact (run_c32 _ _ _ canonical_decomposition_eq canonical_listed sort SO _ _ _ _ D32 fuel Hf CF []).
  - exact (run_c8 _ _ _ canonical_decomposition_eq canonical_listed sort SO _ _ _ _ D8 fuel Hf CF).
  - exact (run_c32 _ _ _ compat_decomposition_eq compat_listed sort SO _ _ _ _ D32 fuel Hf CF []).
  - exact (run_c8 _ _ _ compat_decomposition_eq compat_listed sort SO _ _ _ _ D8 fuel Hf CF).
Qed.
Print Assumptions C52_utf8_is_encoded_utf32_partial.
(** So it is the UTF-8 encoding of the UTF-32 result exactly when that result only has
    codepoints the encoder handles (C19). *)
Theorem C52_utf8_agrees_iff_partial : forall F listed sort cs fuel out,
  form_of F listed -> std_sort_ok sort -> Forall unicode_codepoint cs -> (length cs < fuel)%nat -> count_fits listed cs ->
  let s8 := utf8_ops (string_buffer (utf8_text cs)) in
  let s32 := utf32_ops (string_buffer cs) in
  exists n d,
    normalize fuel s32 (F sort utf32_append_from_utf32ne fuel s32) 0 (zlen cs) [] = Ok (n, d) /\
    (normalize fuel s8 (F sort utf8_append_from_utf32ne fuel s8) 0 (zlen (utf8_text cs)) out = Ok (n, out ++ utf8_text d) <->
     forall c, In c d -> 1 <= c <= 0x7FF \/ 0x2000 <= c <= 0xFFFF \/ 0x80000 <= c <= 0x10FFFF).
Proof.
  intros F listed sort cs fuel out FO SO U Hf CF s8 s32.
  assert (C31 : Forall codepoint31 cs).
  { eapply Forall_impl; [|exact U]. unfold unicode_codepoint, codepoint31. intros. change (2 ^ 31) with 2147483648. lia. }
  destruct (C52_utf8_is_encoded_utf32_partial F listed sort cs fuel FO SO C31 Hf CF) as (n & d & E & H).
  exists n, d. split; [exact E|]. fold s8 in H. rewrite (H out).
  assert (UD : Forall unicode_codepoint d).
  { assert (D32 : delimited_text s32 0 (zlen cs) cs) by (eapply delimited_string; constructor). fold s32 in E. destruct FO.
    - unfold normalization_form_d in E. rewrite (run_d32 _ _ _ canonical_decomposition_eq canonical_listed sort SO _ _ _ _ D32 fuel Hf CF []) in E.
      injection E as _ <-. apply d_pieces_unicode; [exact canonical_unicode|assumption|assumption].
    - unfold normalization_form_kd in E. rewrite (run_d32 _ _ _ compat_decomposition_eq compat_listed sort SO _ _ _ _ D32 fuel Hf CF []) in E.
      injection E as _ <-. apply d_pieces_unicode; [exact compat_unicode|assumption|assumption].
    - unfold normalization_form_c in E. rewrite (run_c32 _ _ _ canonical_decomposition_eq canonical_listed sort SO _ _ _ _ D32 fuel Hf CF []) in E.
      injection E as _ <-. apply c_pieces_unicode; [exact canonical_unicode|assumption|assumption].
    - unfold normalization_form_kc in E. rewrite (run_c32 _ _ _ compat_decomposition_eq compat_listed sort SO _ _ _ _ D32 fuel Hf CF []) in E.
      injection E as _ <-. apply c_pieces_unicode; [exact compat_unicode|assumption|assumption]. }
  rewrite <- (unicode_text_iff out d UD). split.
  - intros X. destruct (utf8_append_from_utf32ne out d) as [o| |]; try discriminate. cbn [bind] in X. congruence.
  - intros ->. reflexivity.
Qed.
Print Assumptions C52_utf8_agrees_iff_partial.
(** False in general: the UTF-8 output for U+1E69 differs from the encoded UTF-32 output. *)
Theorem C52_utf8_agrees_refuted :
  let cs := [0x1E69] in
  normalize 3 (utf32_ops (string_buffer cs)) (normalization_form_c isort utf32_append_from_utf32ne 3 (utf32_ops (string_buffer cs))) 0 1 []
  = Ok (1, [0x1E69]) /\
  normalize 3 (utf8_ops (string_buffer (utf8_text cs))) (normalization_form_c isort utf8_append_from_utf32ne 3 (utf8_ops (string_buffer (utf8_text cs)))) 0 3 []
  = Ok (1, [0xF9; 0xA9; 0; 0; 0]) /\ utf8_text [0x1E69] = [0xE1; 0xB9; 0xA9].
Proof. split; [vm_compute; reflexivity|]. split; vm_compute; reflexivity. Qed.
Print Assumptions C52_utf8_agrees_refuted.
Example C52_example : (* U+00E9 U+20AC in form D *)
  let s := string_buffer (utf8_text [0xE9; 0x20AC]) in
  normalize 4 (utf8_ops s) (normalization_form_d isort utf8_append_from_utf32ne 4 (utf8_ops s)) 0 5 [0x3E]
  = Ok (3, [0x3E; 0x65; 0xCC; 0x81; 0xE2; 0x82; 0xAC]).
Proof. vm_compute. reflexivity. Qed.

(** ** C53.  Not guaranteed: the C++ standard lets std::sort exchange two marks of the same
    class. *)
Definition exchanging_sort (l : list Z) : list Z :=
  match l with
  | [a; b; c] => if (ccc a =? ccc b) && (ccc b =? ccc c) then l
                 else match isort l with [x; y; z] => if ccc y =? ccc z then [x; z; y] else isort l | _ => isort l end
  | _ => isort l
  end.
Theorem C53_order_of_equal_classes_refuted : exists sort, std_sort_ok sort /\
  normalize 4 (utf32_ops [0x71; 0x300; 0x301; 0]) (normalization_form_d sort utf32_append_from_utf32ne 4 (utf32_ops [0x71; 0x300; 0x301; 0])) 0 3 []
  = Ok (3, [0x71; 0x301; 0x300]) /\ has_ccc 0x300 230 /\ has_ccc 0x301 230.
Proof.
  exists exchanging_sort. split; [|split; [vm_compute; reflexivity|split; apply has_ccc_eq; vm_compute; reflexivity]].
  apply std_sort_classes. intros l. unfold exchanging_sort.
  destruct l as [|a [|b [|c [|d l]]]]; try (split; [apply isort_perm|apply isort_sorted]).
  destruct (Z.eqb_spec (ccc a) (ccc b)) as [E1|E1]; [destruct (Z.eqb_spec (ccc b) (ccc c)) as [E2|E2]|]; cbn [andb].
  - split; [apply Permutation_refl|]. repeat constructor; apply ccc_le_iff; lia.
  - pose proof (isort_perm [a; b; c]) as P. pose proof (isort_sorted [a; b; c]) as S. revert P S. generalize (isort [a; b; c]) as m.
    intros [|x [|y [|z [|]]]] P S; try (split; assumption). destruct (Z.eqb_spec (ccc y) (ccc z)) as [E|E]; [|split; assumption].
    split; [eapply perm_trans; [exact P|]; apply perm_skip, perm_swap|].
    inversion S as [|? ? S1 F1]; subst. inversion F1 as [|? ? H1 F2]; subst. inversion F2 as [|? ? H2 _]; subst.
    apply ccc_le_iff in H1, H2. repeat constructor; apply ccc_le_iff; lia.
  - pose proof (isort_perm [a; b; c]) as P. pose proof (isort_sorted [a; b; c]) as S. revert P S. generalize (isort [a; b; c]) as m.
    intros [|x [|y [|z [|]]]] P S; try (split; assumption). destruct (Z.eqb_spec (ccc y) (ccc z)) as [E|E]; [|split; assumption].
    split; [eapply perm_trans; [exact P|]; apply perm_skip, perm_swap|].
    inversion S as [|? ? S1 F1]; subst. inversion F1 as [|? ? H1 F2]; subst. inversion F2 as [|? ? H2 _]; subst.
    apply ccc_le_iff in H1, H2. repeat constructor; apply ccc_le_iff; lia.
Qed.
Print Assumptions C53_order_of_equal_classes_refuted.
(** If the sort keeps the order of equal classes on the decompositions of the graphemes of
    this text then so does normalization; no other assumption is missing. *)
Theorem C53_order_of_equal_classes_partial : forall sort ops b e cs gs fuel out,
  std_sort_ok sort -> delimited_text ops b e cs -> (length cs < fuel)%nat -> segments pairwise_boundary cs gs ->
  (count_fits listed_canonical cs -> ties_kept sort listed_canonical gs ->
   exists ds, Forall2 (fun g d => exists f, expands_all listed_canonical g f /\ Permutation f d /\ order_kept f d /\ StronglySorted ccc_le d) gs ds /\
     normalize fuel ops (normalization_form_d sort utf32_append_from_utf32ne fuel ops) b e out = Ok (zlen (concat ds), out ++ concat ds)) /\
  (count_fits listed_compat cs -> ties_kept sort listed_compat gs ->
   exists ds, Forall2 (fun g d => exists f, expands_all listed_compat g f /\ Permutation f d /\ order_kept f d /\ StronglySorted ccc_le d) gs ds /\
     normalize fuel ops (normalization_form_kd sort utf32_append_from_utf32ne fuel ops) b e out = Ok (zlen (concat ds), out ++ concat ds)).
Proof.
  intros sort ops b e cs gs fuel out SO D Hf S. apply seg_eq in S. subst gs. split; intros CF K.
  - exists (d_pieces full_canonical sort cs).
    split; [|exact (run_d32 _ _ _ canonical_decomposition_eq canonical_listed sort SO _ _ _ _ D fuel Hf CF out)].
    unfold d_pieces. revert K. induction (seg cs) as [|g gs IH]; intros K; [constructor|]. cbn [map]. constructor.
    + exists (flat_map full_canonical g). split; [apply canonical_listed; reflexivity|]. split; [apply SO|].
      split; [|apply (std_sort_classes sort); exact SO]. apply (K g); [left; reflexivity|apply canonical_listed; reflexivity].
    + apply IH. intros g' f I. apply K. right. assumption.
  - exists (d_pieces full_compat sort cs).
    split; [|exact (run_d32 _ _ _ compat_decomposition_eq compat_listed sort SO _ _ _ _ D fuel Hf CF out)].
    unfold d_pieces. revert K. induction (seg cs) as [|g gs IH]; intros K; [constructor|]. cbn [map]. constructor.
    + exists (flat_map full_compat g). split; [apply compat_listed; reflexivity|]. split; [apply SO|].
      split; [|apply (std_sort_classes sort); exact SO]. apply (K g); [left; reflexivity|apply compat_listed; reflexivity].
    + apply IH. intros g' f I. apply K. right. assumption.
Qed.
Print Assumptions C53_order_of_equal_classes_partial.
(** [ties_kept] holds for a stable sort, and for any allowed sort when no class occurs
    twice in a grapheme. *)
Theorem C53_ties_kept_partial : forall sort listed gs, std_sort_ok sort ->
  (stable sort -> ties_kept sort listed gs) /\
  ((forall g f x a y b z k, In g gs -> expands_all listed g f -> f = x ++ a :: y ++ b :: z -> has_ccc a k -> ~ has_ccc b k) ->
   ties_kept sort listed gs).
Proof.
  intros sort listed gs SO. split; [intros St g f _ _; apply St|]. intros H g f I E.
  assert (DC : distinct_classes f).
  { specialize (fun x a y b z k => H g f x a y b z k I E). clear - H. unfold distinct_classes. induction f as [|a f IH]; [constructor|].
    cbn [map]. constructor.
    - intros Ia. apply in_map_iff in Ia. destruct Ia as (b & Eb & Ib). apply in_split in Ib. destruct Ib as (y & z & ->).
      apply (H [] a y b z (ccc a) eq_refl); apply has_ccc_eq; congruence.
    - apply IH. intros x a' y b z k ->. apply (H (a :: x) a' y b z k). reflexivity. }
  rewrite (distinct_sort_eq sort f SO DC). apply isort_stable.
Qed.
Print Assumptions C53_ties_kept_partial.
Example C53_example :
  normalize 4 (utf32_ops [0x71; 0x300; 0x301; 0]) (normalization_form_d isort utf32_append_from_utf32ne 4 (utf32_ops [0x71; 0x300; 0x301; 0])) 0 3 []
  = Ok (3, [0x71; 0x300; 0x301]).
Proof. vm_compute. reflexivity. Qed.

(** ** C54.  False: a Hangul syllable and its jamo. *)
Theorem C54_equivalent_texts_refuted :
  canonically_equivalent [0xAC00] [0x1100; 0x1161] /\
  normalize 3 (utf32_ops [0xAC00; 0]) (normalization_form_d isort utf32_append_from_utf32ne 3 (utf32_ops [0xAC00; 0])) 0 1 [] = Ok (1, [0xAC00]) /\
  normalize 3 (utf32_ops [0x1100; 0x1161; 0]) (normalization_form_d isort utf32_append_from_utf32ne 3 (utf32_ops [0x1100; 0x1161; 0])) 0 2 []
  = Ok (2, [0x1100; 0x1161]).
Proof.
  split; [|split; vm_compute; reflexivity]. apply rst_step. apply (eq_map [] 0xAC00 [0x1100; 0x1161] []).
  right. split; [unfold hangul_syllable, SBase; lia|vm_compute; reflexivity].
Qed.
Print Assumptions C54_equivalent_texts_refuted.
(** If one of two canonically equivalent texts meets the condition of C49, then the outputs
    are the same exactly when the other meets it too. *)
Definition nfd_condition (cs : list Z) (gs : list (list Z)) : Prop :=
  (forall s, In s cs -> ~ hangul_syllable s) /\ graphemes_marks_last listed_canonical gs.
Theorem C54_equivalent_texts_partial : forall sort ops b e cs gs ops' b' e' cs' gs' fuel,
  std_sort_ok sort -> delimited_text ops b e cs -> delimited_text ops' b' e' cs' ->
  (length cs < fuel)%nat -> (length cs' < fuel)%nat -> count_fits listed_canonical cs -> count_fits listed_canonical cs' ->
  segments pairwise_boundary cs gs -> segments pairwise_boundary cs' gs' ->
  ties_kept sort listed_canonical gs -> ties_kept sort listed_canonical gs' ->
  canonically_equivalent cs cs' -> nfd_condition cs gs ->
  exists n d n' d',
    normalize fuel ops (normalization_form_d sort utf32_append_from_utf32ne fuel ops) b e [] = Ok (n, d) /\
    normalize fuel ops' (normalization_form_d sort utf32_append_from_utf32ne fuel ops') b' e' [] = Ok (n', d') /\
    (d = d' <-> nfd_condition cs' gs').
Proof.
  intros sort ops b e cs gs ops' b' e' cs' gs' fuel SO D D' Hf Hf' CF CF' S S' K K' EQ [N1 N2].
  destruct (C49_form_d_is_nfd_iff_partial sort ops b e cs gs fuel [] SO D Hf CF S) as (n & d & E & H).
  destruct (C49_form_d_is_nfd_iff_partial sort ops' b' e' cs' gs' fuel [] SO D' Hf' CF' S') as (n' & d' & E' & H').
  cbn [app] in E, E'. exists n, d, n', d'. split; [assumption|]. split; [assumption|].
  assert (N : nfd cs d) by (apply H; auto). apply (equivalent_nfd cs cs' EQ) in N. split.
  - intros <-. apply H' in N. destruct N as (A & B & _). split; assumption.
  - intros [A B]. assert (X : nfd cs' d') by (apply H'; auto). exact (nfd_fun _ _ _ N X).
Qed.
Print Assumptions C54_equivalent_texts_partial.
Example C54_example : canonically_equivalent [0xE9; 0x41] [0x65; 0x301; 0x41] /\
  nfd_condition [0xE9; 0x41] [[0xE9]; [0x41]] /\ nfd_condition [0x65; 0x301; 0x41] [[0x65; 0x301]; [0x41]].
Proof.
  assert (X : forall l, isort (flat_map full_canonical l) = corder (flat_map full_canonical l) -> forall f, expands_all listed_canonical l f -> marks_last f).
  { intros l E f H. apply canonical_listed in H. subst f. apply marks_last_iff, sort_is_order_iff. exact E. }
  split; [|split; split].
  - apply rst_step. apply (eq_map [] 0xE9 [0x65; 0x301] [0x41]). left.
    apply rel_canonical. apply mapping_of_some. vm_compute. reflexivity.
  - intros s I H. unfold hangul_syllable, SBase in H. cbn [In] in I. lia.
  - intros g f [<-|[<-|[]]]; apply X; vm_compute; reflexivity.
  - intros s I H. unfold hangul_syllable, SBase in H. cbn [In] in I. lia.
  - intros g f [<-|[<-|[]]]; apply X; vm_compute; reflexivity.
Qed.

(** ** C55.  Form KD against NFKD.  False: mappings tagged other than <compat>, e.g. of the
    superscript two, are not applied. *)
Theorem C55_form_kd_is_nfkd_refuted :
  normalize 3 (utf32_ops [0xB2; 0]) (normalization_form_kd isort utf32_append_from_utf32ne 3 (utf32_ops [0xB2; 0])) 0 1 [] = Ok (1, [0xB2]) /\
  ~ nfkd [0xB2] [0xB2].
Proof.
  split; [vm_compute; reflexivity|]. intros N. 
  replace [0xB2] with (concat (d_pieces full_compat isort [0xB2])) in N at 2 by (vm_compute; reflexivity).
  apply nfkd_nf in N. apply (d_pieces_standard_iff full_compat compatibility_mapping full_compat_ne compat_head compat_control
        compatibility_of_canonical compat_text_expands isort isort_std) in N. destruct N as [N _].
  assert (I : In 0xB2 (flat_map full_compat [0xB2])) by (vm_compute; left; reflexivity).
  apply (N 0xB2 [0x32] I). left. exists Tag_super.
  assert (M : mapping_of (fun _ => true) 0xB2 = Some [0x32]) by (vm_compute; reflexivity).
  apply mapping_of_some in M. destruct M as (tag & M & _).
  assert (TG : existsb (fun r => match r with (c, Tag_super, [x]) => (c =? 0xB2) && (x =? 0x32) | _ => false end) ucd_decomposition = true) by (vm_compute; reflexivity).
  apply existsb_exists in TG. destruct TG as ([[c t] l] & J & TG). destruct t; try discriminate TG.
  destruct l as [|x [|]]; try discriminate TG. apply andb_prop in TG. destruct TG as [T1 T2].
  apply Z.eqb_eq in T1, T2. rewrite T1, T2 in J. exact J.
Qed.
Print Assumptions C55_form_kd_is_nfkd_refuted.
(** Exactly when form KD is NFKD: the <compat> and canonical mappings leave nothing that has
    a mapping of any other kind (this includes Hangul syllables), and the conditions of C49. *)
Theorem C55_form_kd_is_nfkd_iff_partial : forall sort ops b e cs gs fuel out,
  std_sort_ok sort -> delimited_text ops b e cs -> (length cs < fuel)%nat -> count_fits listed_compat cs ->
  segments pairwise_boundary cs gs ->
  exists n d,
    normalize fuel ops (normalization_form_kd sort utf32_append_from_utf32ne fuel ops) b e out = Ok (n, out ++ d) /\
    (nfkd cs d <->
     (forall f x m, expands_all listed_compat cs f -> In x f -> ~ compatibility_mapping x m) /\
     graphemes_marks_last listed_compat gs /\ ties_kept sort listed_compat gs).
Proof.
  intros sort ops b e cs gs fuel out SO D Hf CF S. apply seg_eq in S. subst gs. eexists _, _.
  split; [exact (run_d32 _ _ _ compat_decomposition_eq compat_listed sort SO _ _ _ _ D fuel Hf CF out)|].
  rewrite nfkd_nf, (d_pieces_standard_iff full_compat compatibility_mapping full_compat_ne compat_head compat_control
        compatibility_of_canonical compat_text_expands sort SO).
  rewrite (marks_last_listed _ _ _ compat_listed). unfold ties_kept. split.
  - intros [A B]. split; [intros f x m E; apply compat_listed in E; subst f; apply A|]. split; [intros g I; apply B; assumption|].
    intros g f I E. apply compat_listed in E. subst f. apply B. assumption.
  - intros (A & B & C). split; [intros x m; apply (A (flat_map full_compat cs) x m); apply compat_listed; reflexivity|].
    intros g I. split; [auto|]. apply (C g); [assumption|]. apply compat_listed. reflexivity.
Qed.
Print Assumptions C55_form_kd_is_nfkd_iff_partial.
Example C55_example : (* the fi ligature *)
  normalize 3 (utf32_ops [0xFB01; 0]) (normalization_form_kd isort utf32_append_from_utf32ne 3 (utf32_ops [0xFB01; 0])) 0 1 [] = Ok (2, [0x66; 0x69]).
Proof. vm_compute. reflexivity. Qed.

(** ** C56.  Form KC against NFKC. *)
Theorem C56_form_kc_is_nfkc_refuted :
  normalize 3 (utf32_ops [0xB2; 0]) (normalization_form_kc isort utf32_append_from_utf32ne 3 (utf32_ops [0xB2; 0])) 0 1 [] = Ok (1, [0xB2]) /\
  ~ nfkc [0xB2] [0xB2].
Proof.
  split; [vm_compute; reflexivity|]. intros (d & N & C).
  assert (d = [0xB2]).
  { inversion C as [|c rest out NC CT|c rest out SC CF]; subst.
    - exfalso. apply NC. apply has_ccc_eq. vm_compute. reflexivity.
    - assert (P : plain c /\ Forall plain rest).
      { assert (F : Forall plain (c :: rest)) by (apply Forall_forall; intros x Hx;
          exact (nf_plain compatibility_mapping compatibility_of_canonical [0xB2] (c :: rest) x N Hx)).
        inversion F; auto. }
      pose proof (algorithm_text_equivalent _ _ C) as E.
      rewrite (nf_standard_id compatibility_mapping compatibility_of_canonical _ _ N) in E.
      rewrite (nf_order_id compatibility_mapping _ _ N) in E. rewrite <- E. vm_compute. reflexivity. }
  subst d. exact (proj2 C55_form_kd_is_nfkd_refuted N).
Qed.
Print Assumptions C56_form_kc_is_nfkc_refuted.
Theorem C56_form_kc_is_nfkc_iff_partial : forall sort ops b e cs gs fuel out,
  std_sort_ok sort -> delimited_text ops b e cs -> (length cs < fuel)%nat -> count_fits listed_compat cs ->
  segments pairwise_boundary cs gs -> ties_kept sort listed_compat gs ->
  exists n u,
    normalize fuel ops (normalization_form_kc sort utf32_append_from_utf32ne fuel ops) b e out = Ok (n, out ++ u) /\
    (nfkc cs u <->
     (forall f x m, expands_all listed_compat cs f -> In x f -> compatibility_mapping x m -> hangul_syllable x) /\
     graphemes_marks_last listed_compat gs /\ fully_composed u).
Proof.
  intros sort ops b e cs gs fuel out SO D Hf CF S K. apply seg_eq in S. subst gs. eexists _, _.
  split; [exact (run_c32 _ _ _ compat_decomposition_eq compat_listed sort SO _ _ _ _ D fuel Hf CF out)|].
  rewrite (c_pieces_eq _ _ compat_listed sort SO cs K), compat_c_standard, (marks_last_listed _ _ _ compat_listed).
  assert (X : settled_text full_compat compatibility_mapping cs <->
    (forall f x m, expands_all listed_compat cs f -> In x f -> compatibility_mapping x m -> hangul_syllable x)).
  { unfold settled_text. split.
    - intros A f x m E I M. apply compat_listed in E. subst f. destruct (is_syllable x) eqn:Y; [apply is_syllable_spec; assumption|].
      exfalso. apply (A x m I); [|assumption]. intros Z. apply is_syllable_spec in Z. congruence.
    - intros A x m I NS M. apply NS. apply (A (flat_map full_compat cs) x m); [apply compat_listed; reflexivity|assumption|assumption]. }
  rewrite X. reflexivity.
Qed.
Print Assumptions C56_form_kc_is_nfkc_iff_partial.
Example C56_example : (* fi ligature, then s, dot above, dot below *)
  normalize 5 (utf32_ops [0xFB01; 0x73; 0x307; 0x323; 0])
    (normalization_form_kc isort utf32_append_from_utf32ne 5 (utf32_ops [0xFB01; 0x73; 0x307; 0x323; 0])) 0 4 [] = Ok (3, [0x66; 0x69; 0x1E69]).
Proof. vm_compute. reflexivity. Qed.

(** ** C57.  Forms D and C give a text canonically equivalent to the input exactly when no
    grapheme's decomposition has a starter after a mark. *)
Theorem C57_equivalent_to_the_input_refuted :
  normalize 4 (utf32_ops [0x61; 0x301; 0x200D; 0]) (normalization_form_c isort utf32_append_from_utf32ne 4 (utf32_ops [0x61; 0x301; 0x200D; 0])) 0 3 []
  = Ok (3, [0x61; 0x200D; 0x301]) /\ ~ canonically_equivalent [0x61; 0x301; 0x200D] [0x61; 0x200D; 0x301].
Proof.
  split; [vm_compute; reflexivity|]. intros E. apply equivalent_eq in E. vm_compute in E. discriminate.
Qed.
Print Assumptions C57_equivalent_to_the_input_refuted.
Theorem C57_equivalent_to_the_input_iff_partial : forall sort ops b e cs gs fuel out,
  std_sort_ok sort -> delimited_text ops b e cs -> (length cs < fuel)%nat -> count_fits listed_canonical cs ->
  segments pairwise_boundary cs gs -> ties_kept sort listed_canonical gs ->
  exists n d m u,
    normalize fuel ops (normalization_form_d sort utf32_append_from_utf32ne fuel ops) b e out = Ok (n, out ++ d) /\
    normalize fuel ops (normalization_form_c sort utf32_append_from_utf32ne fuel ops) b e out = Ok (m, out ++ u) /\
    (canonically_equivalent cs d <-> graphemes_marks_last listed_canonical gs) /\
    (canonically_equivalent cs u <-> graphemes_marks_last listed_canonical gs) /\
    canonically_equivalent d u.
Proof.
  intros sort ops b e cs gs fuel out SO D Hf CF S K. apply seg_eq in S. subst gs. eexists _, _, _, _.
  split; [exact (run_d32 _ _ _ canonical_decomposition_eq canonical_listed sort SO _ _ _ _ D fuel Hf CF out)|].
  split; [exact (run_c32 _ _ _ canonical_decomposition_eq canonical_listed sort SO _ _ _ _ D fuel Hf CF out)|].
  rewrite (c_pieces_eq _ _ canonical_listed sort SO cs K), (d_pieces_eq _ _ canonical_listed sort SO cs K).
  rewrite (marks_last_listed _ _ _ canonical_listed). split; [apply form_d_equivalent_iff|]. split; [apply form_c_equivalent_iff|].
  apply equivalent_eq. rewrite !full_standard_all.
  rewrite (form_c_full _ full_canonical_ne canonical_head canonical_control full_canonical_fix canonical_compose).
  rewrite (form_d_fix _ full_canonical_fix). reflexivity.
Qed.
Print Assumptions C57_equivalent_to_the_input_iff_partial.
Example C57_example : (* a text for which it holds: the condition is met by s, dot above, dot below *)
  graphemes_marks_last listed_canonical [[0x73; 0x307; 0x323]] /\ canonically_equivalent [0x73; 0x307; 0x323] [0x1E69].
Proof.
  split; [|apply equivalent_eq; vm_compute; reflexivity].
  intros g f [<-|[]] H. apply canonical_listed in H. subst f. apply marks_last_iff, sort_is_order_iff. vm_compute. reflexivity.
Qed.
