(** * Property C123: a text that arrives in pieces is normalized as a whole

    [stream_codepoints] and [stream_octets] (StreamModel.v): client programs that are handed a text in pieces, keep only
    its last grapheme back, and normalize the others at once.  [normalize]: the documented call on the whole text.
    [segments pairwise_boundary] (GraphemeSpec.v): the division of a text into graphemes; [output_encoding]: into a UTF-8 or a
    UTF-32 string; [count_fits]: the whole decomposition is not longer than an int counts. *)
From Coq Require Import Permutation Sorted Relations.
From Verif Require Import Prelude DataTables UcdTables PropsModel Utf8Model TextModel StdSortModel Utf8Spec UnicodeSpec GraphemeSpec TextSpec NormSpec
  PropsProofs LawfulProofs DecompTables DecompProofs GraphemeProofs Uax29Proofs GraphemeText OrderProofs ComposeProofs NormData NormProofs HangulProofs NfcProofs NormText
  TextsProofs SubRange StreamModel StreamProofs Properties_Iteration Properties_Graphemes Properties_Normalize Properties_Sort Properties_Texts.
Require Import ZifyBool ZifyNat.

(** ** Whatever comes after it, the graphemes of a text but the last are graphemes of the longer text. *)
Theorem C123_only_the_last_grapheme_may_change : forall x gs g y hs,
  segments pairwise_boundary x (gs ++ [g]) -> segments pairwise_boundary (g ++ y) hs -> segments pairwise_boundary (x ++ y) (gs ++ hs).
Proof.
  intros x gs g y hs Sx Sy. apply seg_eq in Sx, Sy. pose proof (seg_segments (x ++ y)) as S.
  rewrite seg_prefix, <- Sx, removelast_snoc, last_last, <- Sy in S. exact S.
Qed.
Print Assumptions C123_only_the_last_grapheme_may_change.
(** The last one may: e and what follows. *)
Example C123_last_grapheme_example :
  segments pairwise_boundary [0x61; 0x65] ([[0x61]] ++ [[0x65]]) /\ segments pairwise_boundary ([0x65] ++ [0x301; 0x62]) [[0x65; 0x301]; [0x62]] /\
  segments pairwise_boundary [0x61; 0x65; 0x301; 0x62] [[0x61]; [0x65; 0x301]; [0x62]].
Proof. repeat split; first [apply (seg_segments [0x61; 0x65])|apply (seg_segments [0x65; 0x301; 0x62])|apply (seg_segments [0x61; 0x65; 0x301; 0x62])]. Qed.

(** ** Pieces of codepoints: the same number and the same output as normalizing the whole text. *)
Theorem C123_codepoints_in_pieces : forall F listed sort append chunks fuel out,
  form_of F listed -> std_sort_ok sort -> output_encoding append ->
  (2 * length (concat chunks) < fuel)%nat -> count_fits listed (concat chunks) ->
  let whole := utf32_ops (string_buffer (concat chunks)) in
  stream_codepoints F sort append fuel chunks [] out 0
  = normalize fuel whole (F sort append fuel whole) 0 (zlen (concat chunks)) out.
Proof.
  intros F listed sort append chunks fuel out FO SO OE Hf CF. cbv zeta. destruct (form_data_of F listed FO) as (k & full & FD).
  rewrite (stream_eq F listed k full sort append FO FD SO OE fuel chunks [] out 0 Hf CF). cbn [app].
  rewrite (run_any F listed k full sort append _ _ _ _ fuel out FD SO OE (delimited_string _ _ _ _ _ (utf32_string (concat chunks))) ltac:(lia) CF).
  reflexivity.
Qed.
Print Assumptions C123_codepoints_in_pieces.

(** ** Pieces of octets, cut anywhere, also inside of a codepoint.  The check sees an ASCII character in front of the octets. *)
Theorem C123_octets_in_pieces : forall F listed sort append marker chunks cs fuel out,
  form_of F listed -> std_sort_ok sort -> output_encoding append -> 0 <= marker < 0x80 ->
  Forall codepoint31 cs -> concat chunks = utf8_text cs -> (2 * length cs < fuel)%nat -> count_fits listed cs ->
  let whole := utf8_ops (string_buffer (utf8_text cs)) in
  stream_octets F sort append fuel [marker] chunks [] [] out 0
  = normalize fuel whole (F sort append fuel whole) 0 (zlen (utf8_text cs)) out.
Proof.
  intros F listed sort append marker chunks cs fuel out FO SO OE Hm FC E Hf CF. cbv zeta. destruct (form_data_of F listed FO) as (k & full & FD).
  destruct (octets_codepoints F sort append fuel marker chunks Hm [] cs FC ltac:(lia) E (or_introl eq_refl)) as (ps & <- & R). rewrite R.
  rewrite (stream_eq F listed k full sort append FO FD SO OE fuel ps [] out 0 Hf CF). cbn [app].
  rewrite (run_any F listed k full sort append _ _ _ _ fuel out FD SO OE (delimited_string _ _ _ _ _ (utf8_string (concat ps) FC)) ltac:(lia) CF).
  reflexivity.
Qed.
Print Assumptions C123_octets_in_pieces.
(** With that character, check tells exactly whether the octets so far end between codepoints. *)
Theorem C123_check_behind_a_marker : forall marker cs s r, 0 <= marker < 0x80 -> Forall codepoint31 cs -> s ++ r = utf8_text cs ->
  exists answer, bounds_check (string_buffer (marker :: s)) 0 (zlen (marker :: s)) = Ok answer /\
    (answer = true <-> exists a b, cs = a ++ b /\ s = utf8_text a).
Proof.
  intros marker cs s r Hm FC E. destruct (check_prefix marker cs s r Hm FC E) as [(a & b & EC & Ea & _ & CK)|CK]; cbn [app] in CK; rewrite CK.
  - exists true. split; [reflexivity|]. split; [eauto|reflexivity].
  - exists false. split; [reflexivity|]. split; [discriminate|]. intros (a & b & -> & ->). apply Forall_app in FC. destruct FC as (FA & _).
    assert (EM : [marker] = utf8_text [marker]).
    { cbn [utf8_text flat_map]. unfold utf8_encode. destruct (Z.ltb_spec marker 128); [reflexivity|lia]. }
    assert (Q : bounds_check (string_buffer ([marker] ++ utf8_text a)) 0 (zlen ([marker] ++ utf8_text a)) = Ok true).
    { rewrite EM. unfold utf8_text. rewrite <- flat_map_app. apply BoundsProofs.check_accepts_valid. constructor; [unfold codepoint31; lia|exact FA]. }
    cbn [app] in Q. rewrite Q in CK. discriminate.
Qed.
Print Assumptions C123_check_behind_a_marker.
(** Without it the same program is wrong: after the first octet of the euro sign check says the octets are complete; the loop
    finds no codepoint in them, and nothing is ever written, with every form, sort and output. *)
Theorem C123_check_alone_loses_text : exists cs chunks, Forall unicode_codepoint cs /\ concat chunks = utf8_text cs /\
  forall F sort append out, stream_octets F sort append 20 [] chunks [] [] out 0 = Ok (0, out).
Proof.
  exists [0x20AC], [[0xE2]; [0x82; 0xAC]]. split; [repeat constructor; discriminate|]. split; [reflexivity|]. intros. reflexivity.
Qed.
Print Assumptions C123_check_alone_loses_text.

(** The text e, acute, euro sign, a, ring above in 5 pieces: two cut a codepoint, and two cut a grapheme. *)
Example C123_example :
  let cs := [0x65; 0x301; 0x20AC; 0x61; 0x30A] in
  let chunks := [[0x65]; [0xCC]; [0x81; 0xE2; 0x82]; []; [0xAC; 0x61]; [0xCC; 0x8A]] in
  concat chunks = utf8_text cs /\
  stream_octets normalization_form_c gnu_sort utf8_append_from_utf32ne 20 [0x20] chunks [] [] [] 0 = Ok (3, utf8_text [0xE9; 0x20AC; 0xE5]) /\
  stream_codepoints normalization_form_c gnu_sort utf32_append_from_utf32ne 20 [[0x65]; [0x301; 0x20AC; 0x61]; [0x30A]] [] [] 0 = Ok (3, [0xE9; 0x20AC; 0xE5]).
Proof. cbv zeta. repeat split; vm_compute; reflexivity. Qed.
