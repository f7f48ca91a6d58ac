(** * Properties C98-C99: graphemes and normalization of arbitrary octets

    [string_buffer s] is the memory of a std::string with octets [s]; [graphemes] and
    [normalize] are the client loops from grapheme_begin() to grapheme_end() (TextModel.v).
    [forward_walk] (the positions at which the codepoint loop finds codepoints), [extent],
    [value_at] and [without_swallowed] are in RangeSpec.v, [reached] in MemSpec.v, [stray] in
    Utf8Spec.v, [segments] and [pairwise_boundary] in GraphemeSpec.v, [one_by_one] in
    TextSpec.v, [end_readable] (grapheme_end() reads inside of the string) in
    Properties_Bytes.v, [form_of] in Properties_Normalize.v. *)
From Verif Require Import Prelude DataTables PropsModel Utf8Model TextModel Utf8Spec UnicodeSpec GraphemeSpec TextSpec RangeSpec MemSpec
  LawfulProofs ByteProofs RangeProofs MemProofs MemLoops GraphemeProofs Uax29Proofs GraphemeText GraphemeBytes OrderProofs Properties_Normalize Properties_Bytes OctetGraphemes.
Require Import ZifyBool ZifyNat.

(** The octets of the counterexample. *)
Lemma swallowed_upto : Forall octet_upto_FD [0xC3; 0xE2; 0x82; 0xAC].
Proof. repeat constructor; unfold octet_upto_FD; lia. Qed.
Lemma swallowed_first : ~ continuation_octet (octet [0xC3; 0xE2; 0x82; 0xAC] 0).
Proof. unfold continuation_octet. change (octet [0xC3; 0xE2; 0x82; 0xAC] 0) with 0xC3. lia. Qed.
Lemma swallowed_readable : end_readable [0xC3; 0xE2; 0x82; 0xAC].
Proof.
  right. exists 1. split; [|vm_compute; discriminate]. split; [unfold zlen; cbn; lia|]. unfold continuation_octet.
  change (octet [0xC3; 0xE2; 0x82; 0xAC] 1) with 0xE2. split; [lia|]. intros k K. unfold zlen in K. cbn in K.
  assert (D : k = 2 \/ k = 3) by lia. destruct D as [->| ->]; [change (octet [0xC3; 0xE2; 0x82; 0xAC] 2) with 0x82|change (octet [0xC3; 0xE2; 0x82; 0xAC] 3) with 0xAC]; lia.
Qed.
Lemma swallowed_walk : forward_walk (string_buffer [0xC3; 0xE2; 0x82; 0xAC]) 4 0 [0; 1].
Proof.
  assert (L : forall p r, In (p, r) [(0, 0); (2, 1); (4, 4)] -> closest_lead (string_buffer [0xC3; 0xE2; 0x82; 0xAC]) p r).
  { intros p r H. cbn in H. destruct H as [H|[H|[H|[]]]]; injection H as <- <-; (split; [lia|]); (split; [intros [H1 H2]; vm_compute in H1, H2; first [discriminate H2|apply H1; reflexivity]|]);
      intros k K; try lia. replace k with 2 by lia. split; vm_compute; [discriminate|reflexivity]. }
  apply (forward_next _ _ _ 0); [apply L; cbn; auto|vm_compute; discriminate|].
  apply (forward_next _ _ _ 1); [apply L; cbn; auto|vm_compute; discriminate|].
  apply (forward_stop _ _ _ 4); [apply L; cbn; auto|vm_compute; reflexivity].
Qed.

(** ** C98.  The graphemes of any octets are the graphemes of the codepoints the codepoint
    loop delivers.  False: in "\xC3\xE2\x82\xAC" the octet C3 takes E2 for its continuation;
    the codepoint loop delivers U+00E2 and U+20AC, the grapheme loop an empty grapheme and
    U+20AC. *)
Theorem C98_graphemes_of_the_codepoints_refuted : exists s cs, Forall octet_upto_FD s /\ ~ continuation_octet (octet s 0) /\ end_readable s /\
  (forall fuel, (3 <= fuel)%nat -> iterate_codepoints_for fuel (utf8_ops (string_buffer s)) 0 (zlen s) = Ok cs) /\
  forall fuel, (3 <= fuel)%nat -> exists gs, graphemes fuel (utf8_ops (string_buffer s)) 0 (zlen s) = Ok gs /\ ~ segments pairwise_boundary cs gs.
Proof.
  exists [0xC3; 0xE2; 0x82; 0xAC], [0xE2; 0x20AC].
  split; [exact swallowed_upto|]. split; [exact swallowed_first|]. split; [exact swallowed_readable|].
  pose proof (buffer_upto _ swallowed_upto) as UM. pose proof (e_range [0xC3; 0xE2; 0x82; 0xAC]) as ER. split.
  { intros fuel H. apply (proj2 (walk_result _ UM 4 ER 0 [0; 1] ltac:(lia) swallowed_walk fuel ltac:(cbn; lia))). }
  intros fuel Hf. destruct (readable_cases _ swallowed_upto swallowed_first) as [(_ & HE)|(N & _)]; [|destruct (N swallowed_readable)].
  assert (SG : seg (map (value_at (string_buffer [0xC3; 0xE2; 0x82; 0xAC])) [0; 1]) = [[0xE2]; [0x20AC]]) by (vm_compute; reflexivity).
  eexists. split; [exact (octet_graphemes _ swallowed_upto swallowed_first HE [0; 1] fuel swallowed_walk ltac:(cbn; lia))|].
  rewrite SG. intros S. apply seg_eq in S. change [0xE2; 0x20AC] with (map (value_at (string_buffer [0xC3; 0xE2; 0x82; 0xAC])) [0; 1]) in S.
  rewrite SG in S. discriminate.
Qed.
Print Assumptions C98_graphemes_of_the_codepoints_refuted.
(** Exactly: the last codepoint of a grapheme is lost when the next codepoint starts among
    the octets it announces, and nothing else is. *)
Theorem C98_graphemes_of_octets_partial : forall s rs gs fuel, Forall octet_upto_FD s -> ~ continuation_octet (octet s 0) -> end_readable s ->
  forward_walk (string_buffer s) (zlen s) 0 rs -> segments pairwise_boundary (map (value_at (string_buffer s)) rs) gs -> (length rs < fuel)%nat ->
  graphemes fuel (utf8_ops (string_buffer s)) 0 (zlen s) = Ok (without_swallowed (string_buffer s) rs gs).
Proof.
  intros s rs gs fuel U C R W S Hf. destruct (readable_cases s U C) as [(_ & H)|(N & _)]; [|contradiction].
  apply seg_eq in S. subst gs. apply octet_graphemes; assumption.
Qed.
Print Assumptions C98_graphemes_of_octets_partial.
(** So the claim holds when every codepoint starts at or after the end of the one before. *)
Theorem C98_graphemes_of_the_codepoints_partial : forall s rs fuel, Forall octet_upto_FD s -> ~ continuation_octet (octet s 0) -> end_readable s ->
  forward_walk (string_buffer s) (zlen s) 0 rs -> (length rs < fuel)%nat ->
  (forall k, (S k < length rs)%nat -> extent (string_buffer s) (nth k rs 0) <= nth (S k) rs 0) ->
  exists cs gs, iterate_codepoints_for fuel (utf8_ops (string_buffer s)) 0 (zlen s) = Ok cs /\
    graphemes fuel (utf8_ops (string_buffer s)) 0 (zlen s) = Ok gs /\ segments pairwise_boundary cs gs.
Proof.
  intros s rs fuel U C R W Hf K. set (mem := string_buffer s) in *.
  exists (map (value_at mem) rs), (seg (map (value_at mem) rs)).
  assert (UM : Forall octet_upto_FD mem) by (apply buffer_upto; assumption).
  split; [apply (walk_result mem UM (zlen s) (e_range s) 0 rs); [unfold zlen; lia|assumption|assumption]|].
  split; [|apply seg_segments].
  unfold mem. rewrite (C98_graphemes_of_octets_partial s rs _ fuel U C R W (seg_segments _) Hf). f_equal.
  assert (CC : concat (seg (map (value_at mem) rs)) = map (value_at mem) rs) by apply seg_concat.
  pose proof (seg_nonempty (map (value_at mem) rs)) as NE.
  fold mem. revert CC NE. generalize (seg (map (value_at mem) rs)) as gs. intros gs. revert rs W Hf K. 
  assert (G : forall gs rs, (forall k, (S k < length rs)%nat -> extent mem (nth k rs 0) <= nth (S k) rs 0) ->
    concat gs = map (value_at mem) rs -> Forall (fun g : list Z => g <> []) gs -> without_swallowed mem rs gs = gs).
  { clear. induction gs as [|g gs IH]; intros rs K CC NE; [reflexivity|]. cbn [without_swallowed concat] in *.
    inversion NE as [|x l NG NE']; subst. assert (LG : (0 < length g)%nat) by (destruct g; [contradiction|cbn; lia]).
    assert (LR : (length g <= length rs)%nat) by (apply (f_equal (@length Z)) in CC; rewrite app_length, map_length in CC; lia).
    f_equal.
    - destruct (skipn (length g) rs) as [|r t] eqn:SK; [reflexivity|].
      pose proof (skipn_head rs (length g) r t SK) as HR.
      assert (LT : (length g < length rs)%nat) by (apply (f_equal (@length Z)) in SK; rewrite skipn_length in SK; cbn in SK; lia).
      change (firstn (length g) rs) with (firstn (length g) (skipn 0 rs)). rewrite last_sub by lia.
      specialize (K (length g - 1)%nat ltac:(lia)). replace (S (length g - 1)) with (length g) in K by lia. rewrite HR in K.
      replace (0 + length g - 1)%nat with (length g - 1)%nat by lia. replace (r <? extent mem (nth (length g - 1) rs 0)) with false by lia. reflexivity.
    - apply IH; [| |assumption].
      + intros k Hk. rewrite skipn_length in Hk. specialize (K (length g + k)%nat ltac:(lia)).
        assert (N : forall j, nth j (skipn (length g) rs) 0 = nth (length g + j) rs 0).
        { clear. generalize (length g) as m. induction rs as [|x l IH]; intros m j; [rewrite skipn_nil; destruct j, m; reflexivity|]. destruct m; [reflexivity|]. cbn. apply IH. }
        rewrite !N. replace (length g + S k)%nat with (S (length g + k)) by lia. exact K.
      + rewrite <- skipn_map, <- CC, skipn_app, skipn_all, Nat.sub_diag. reflexivity. }
  intros rs W Hf K CC NE. apply G; assumption.
Qed.
Print Assumptions C98_graphemes_of_the_codepoints_partial.
(** And if the loop comes to stand on a stray continuation octet, it never ends.  There is no
    other case. *)
Theorem C98_grapheme_loop_never_ends_partial : forall s, Forall octet_upto_FD s -> ~ continuation_octet (octet s 0) -> end_readable s ->
  ((exists rs, forward_walk (string_buffer s) (zlen s) 0 rs) \/ exists x, reached (string_buffer s) (zlen s) 0 x /\ stray (string_buffer s) x) /\
  ((exists x, reached (string_buffer s) (zlen s) 0 x /\ stray (string_buffer s) x) ->
   forall fuel, graphemes fuel (utf8_ops (string_buffer s)) 0 (zlen s) = OutOfFuel).
Proof.
  intros s U C R. pose proof (buffer_upto s U) as UM. pose proof (e_range s) as ER.
  destruct (forward_any _ UM (zlen s) ER 0 ltac:(unfold zlen; lia)) as (_ & A & B & D). split.
  - destruct D as [L|[(rs & _ & W)|X]]; [|left; exists rs; assumption|right; assumption]. exfalso. apply (octet_string_first s C). apply (L 0). unfold zlen in *. lia.
  - intros X fuel. destruct (readable_cases s U C) as [(_ & H)|(N & _)]; [|contradiction].
    apply (endless_graphemes s U C H). intros rs W. destruct (A rs (S (length rs)) W ltac:(lia)) as (Y & _). destruct (B X (S (length rs))) as (Z & _). congruence.
Qed.
Print Assumptions C98_grapheme_loop_never_ends_partial.

(** ** C99.  Normalization looks at nothing but the graphemes: if the grapheme loop over a text
    delivers [gs], then normalizing the text, in any form and into any output, is passing the
    elements of [gs], each as a string of its own, to the form, one after the other. *)
Theorem C99_normalization_grapheme_by_grapheme : forall F listed sort append fuel ops b e out gs, form_of F listed ->
  graphemes fuel ops b e = Ok gs ->
  normalize fuel ops (F sort append fuel ops) b e out =
  one_by_one (fun g o => F sort append fuel (utf32_ops (string_buffer g)) (0, zlen g) o) gs out 0.
Proof. intros. eapply normalize_by_graphemes; eassumption. Qed.
Print Assumptions C99_normalization_grapheme_by_grapheme.
(** So texts with the same graphemes have the same forms, wherever and however they are stored. *)
Theorem C99_same_graphemes_same_form : forall F listed sort append fuel ops b e ops' b' e' out gs, form_of F listed ->
  graphemes fuel ops b e = Ok gs -> graphemes fuel ops' b' e' = Ok gs ->
  normalize fuel ops (F sort append fuel ops) b e out = normalize fuel ops' (F sort append fuel ops') b' e' out.
Proof.
  intros F listed sort append fuel ops b e ops' b' e' out gs FO G G'.
  rewrite (normalize_by_graphemes F listed sort append fuel ops b e out gs FO G).
  rewrite (normalize_by_graphemes F listed sort append fuel ops' b' e' out gs FO G'). reflexivity.
Qed.
Print Assumptions C99_same_graphemes_same_form.
(** The normalization of any octets. *)
Theorem C99_normalization_of_octets : forall F listed sort append s rs gs fuel out, form_of F listed ->
  Forall octet_upto_FD s -> ~ continuation_octet (octet s 0) -> end_readable s ->
  forward_walk (string_buffer s) (zlen s) 0 rs -> segments pairwise_boundary (map (value_at (string_buffer s)) rs) gs -> (length rs < fuel)%nat ->
  normalize fuel (utf8_ops (string_buffer s)) (F sort append fuel (utf8_ops (string_buffer s))) 0 (zlen s) out =
  one_by_one (fun g o => F sort append fuel (utf32_ops (string_buffer g)) (0, zlen g) o) (without_swallowed (string_buffer s) rs gs) out 0.
Proof.
  intros F listed sort append s rs gs fuel out FO U C R W S Hf. apply (C99_normalization_grapheme_by_grapheme F listed); [assumption|].
  apply C98_graphemes_of_octets_partial; assumption.
Qed.
Print Assumptions C99_normalization_of_octets.
Example C98_C99_example :
  let s := [0xC3; 0xE2; 0x82; 0xAC] in
  map (value_at (string_buffer s)) [0; 1] = [0xE2; 0x20AC] /\
  without_swallowed (string_buffer s) [0; 1] [[0xE2]; [0x20AC]] = [[]; [0x20AC]] /\
  graphemes 5 (utf8_ops (string_buffer s)) 0 4 = Ok [[]; [0x20AC]] /\
  (* "\xC3a", U+0301: C3 swallows the "a", and nothing starts among its octets *)
  graphemes 5 (utf8_ops (string_buffer [0xC3; 0x61; 0xCC; 0x81])) 0 4 = Ok [[0xE1; 0x301]] /\
  (let ops := utf8_ops (string_buffer [0xC3; 0x61; 0xCC; 0x81]) in
   normalize 5 ops (normalization_form_d isort utf32_append_from_utf32ne 5 ops) 0 4 [] = Ok (3, [0x61; 0x301; 0x301])) /\
  (* "a\x81": endless *)
  stray (string_buffer [0x61; 0x81]) 1 /\ reached (string_buffer [0x61; 0x81]) 2 0 1.
Proof.
  cbv zeta. split; [vm_compute; reflexivity|]. split; [vm_compute; reflexivity|]. split; [vm_compute; reflexivity|].
  split; [vm_compute; reflexivity|]. split; [vm_compute; reflexivity|].
  assert (L : forall p, p = 0 \/ p = 1 -> closest_lead (string_buffer [0x61; 0x81]) p 0).
  { intros p P. split; [lia|]. split; [intros [H1 H2]; vm_compute in H1, H2; first [discriminate H2|apply H1; reflexivity]|].
    intros k K. replace k with 1 by lia. split; vm_compute; [discriminate|reflexivity]. }
  split.
  - exists 0. split; [apply L; auto|]. vm_compute. discriminate.
  - change 1 with (extent (string_buffer [0x61; 0x81]) 0). apply reached_next with (p := 0); [constructor|apply L; auto|vm_compute; discriminate].
Qed.
