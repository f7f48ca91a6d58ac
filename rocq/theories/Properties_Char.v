(** * Property C120: whether [char] is signed does not matter

    Reading guide.  CharModel.v: the UTF-8 code with a parameter [char_is_signed] saying which kind the platform has
    ([true]: x86-64, [false]: ARM).  All other theorems are about the functions without [_on] (Utf8Model.v, TextModel.v), which are for signed
    [char]; by this property they hold for both.  Memory holds octets, 0 to 255 ([is_byte]); results include undefined behaviour
    and running forever. *)
From Verif Require Import Prelude PropsModel Utf8Model TextModel Utf8Spec Utf8Proofs CharModel CharProofs.

(** ** The classification of octets (utf8_util). *)
Theorem C120_octets : forall char_is_signed b, is_byte b ->
  is_7bit_character_on char_is_signed b = is_7bit_character b /\
  is_codepoint_continuation_on char_is_signed b = is_codepoint_continuation b /\
  is_codepoint_start_on char_is_signed b = is_codepoint_start b /\
  codepoint_size_on char_is_signed b = codepoint_size b.
Proof. intros s b B. destruct (functions s b B) as (A1 & A2 & A3 & A4 & _). repeat split; assumption. Qed.
Print Assumptions C120_octets.

(** ** Every operation of the iterators, at any place in any memory. *)
Theorem C120_iterators : forall char_is_signed mem p q, Forall is_byte mem ->
  let ops := utf8_ops_on char_is_signed mem in
  op_deref ops p = it_deref mem p /\ op_inc ops p = it_preinc mem p /\ op_postinc ops p = it_postinc mem p /\
  op_dec ops p = it_predec mem p /\ it_postdec_on char_is_signed mem p = it_postdec mem p /\ op_eq ops p q = it_eq mem p q.
Proof.
  intros s mem p q F. cbn [utf8_ops_on op_deref op_inc op_postinc op_dec op_eq]. unfold it_deref, it_preinc, it_predec.
  rewrite (current_same s mem F), (forward_same s mem F), (postinc_same s mem F), (backward_same s mem F), (postdec_same s mem F), (eq_same s mem F).
  repeat split; reflexivity.
Qed.
Print Assumptions C120_iterators.

(** ** Writing through the mutable iterator and converting to UTF-8: the octets stored are the same, *)
Theorem C120_writing : forall char_is_signed mem p c cs output, Forall is_byte mem ->
  it_assign_on char_is_signed mem p c = it_assign mem p c /\
  write_codepoints_on char_is_signed mem p cs = write_codepoints mem p cs /\
  utf8_append_from_utf32ne_on char_is_signed output cs = utf8_append_from_utf32ne output cs.
Proof.
  intros s mem p c cs output F. rewrite (assign_same s mem p c F), (write_same s cs mem p F), (append_same s cs output). repeat split; reflexivity.
Qed.
Print Assumptions C120_writing.
(** and octets again. *)
Theorem C120_writing_octets : forall mem p c mem' p', Forall is_byte mem -> it_assign mem p c = Ok (mem', p') -> Forall is_byte mem'.
Proof. exact assign_bytes. Qed.
Print Assumptions C120_writing_octets.

(** ** utf8_bounds. *)
Theorem C120_bounds : forall char_is_signed mem b e, Forall is_byte mem ->
  bounds_check_on char_is_signed mem b e = bounds_check mem b e /\ bounds_enforce_on char_is_signed mem b e = bounds_enforce mem b e.
Proof. intros s mem b e F. split; [apply bounds_check_same|apply enforce_same]; exact F. Qed.
Print Assumptions C120_bounds.

(** ** Loops, graphemes and append. *)
Theorem C120_texts : forall char_is_signed mem b e k fuel output, Forall is_byte mem ->
  let ops := utf8_ops_on char_is_signed mem in
  iterate_codepoints fuel ops b e = iterate_codepoints fuel (utf8_ops mem) b e /\
  iterate_codepoints_for fuel ops b e = iterate_codepoints_for fuel (utf8_ops mem) b e /\
  iterate_backwards fuel ops b e = iterate_backwards fuel (utf8_ops mem) b e /\
  graphemes fuel ops b e = graphemes fuel (utf8_ops mem) b e /\
  nth_grapheme fuel ops b e k = nth_grapheme fuel (utf8_ops mem) b e k /\
  grapheme_end fuel ops b e = grapheme_end fuel (utf8_ops mem) b e /\
  utf8_append_on char_is_signed output mem b e = utf8_append output mem b e /\
  utf8_append_codepoints_as_chars_on char_is_signed fuel mem b e output = utf8_append_codepoints_as_chars fuel (utf8_ops mem) b e output.
Proof.
  intros s mem b e k fuel output F ops. pose proof (utf8_same_ops s mem F) as O. fold ops in O.
  repeat split; [apply loop_same|apply loop_for_same|apply loop_back_same|apply graphemes_same|apply nth_grapheme_same|apply end_same|apply utf8_append_same|apply as_chars_same];
    assumption.
Qed.
Print Assumptions C120_texts.
Theorem C120_grapheme_iterators : forall char_is_signed mem fuel b e w g h, Forall is_byte mem ->
  let ops := utf8_ops_on char_is_signed mem in
  gi_make2 fuel ops b e = gi_make2 fuel (utf8_ops mem) b e /\ gi_make3 fuel ops b e w = gi_make3 fuel (utf8_ops mem) b e w /\
  gi_inc fuel ops g = gi_inc fuel (utf8_ops mem) g /\ gi_eq fuel ops g h = gi_eq fuel (utf8_ops mem) g h /\
  gi_eq_cp fuel ops g w = gi_eq_cp fuel (utf8_ops mem) g w.
Proof.
  intros s mem fuel b e w g h F ops. pose proof (utf8_same_ops s mem F) as O. fold ops in O.
  repeat split; [apply make2_same|apply make3_same|apply gi_inc_same|apply gi_eq_same|apply gi_eq_cp_same]; assumption.
Qed.
Print Assumptions C120_grapheme_iterators.

(** ** Normalization, from UTF-8 into UTF-8 or into UTF-32, in all four forms and with any sort. *)
Theorem C120_normalization : forall char_is_signed sort mem b e fuel output, Forall is_byte mem ->
  let ops := utf8_ops_on char_is_signed mem in
  (forall form, In form [normalization_form_d; normalization_form_kd; normalization_form_c; normalization_form_kc] ->
     normalize fuel ops (form sort (utf8_append_from_utf32ne_on char_is_signed) fuel ops) b e output =
     normalize fuel (utf8_ops mem) (form sort utf8_append_from_utf32ne fuel (utf8_ops mem)) b e output /\
     normalize fuel ops (form sort utf32_append_from_utf32ne fuel ops) b e output =
     normalize fuel (utf8_ops mem) (form sort utf32_append_from_utf32ne fuel (utf8_ops mem)) b e output).
Proof.
  intros s sort mem b e fuel output F ops. pose proof (utf8_same_ops s mem F) as O. fold ops in O.
  assert (A : forall x y, utf8_append_from_utf32ne_on s x y = utf8_append_from_utf32ne x y) by (intros; apply append_same).
  intros form [<-|[<-|[<-|[<-|[]]]]]; split; apply (normalize_same _ _ O); intros g x;
    first [apply (form_decomposed_same _ _ O)|apply (form_composed_same _ _ O)]; first [exact A|reflexivity].
Qed.
Print Assumptions C120_normalization.

(** The octet E9 is -23 as a signed and 233 as an unsigned [char]; "é" is one codepoint, cut in the middle it fails the check, on both. *)
Example C120_example :
  char_value true 0xE9 = -23 /\ char_value false 0xE9 = 233 /\
  forall char_is_signed,
    let mem := [0xC3; 0xA9; 0x61; 0] in
    Forall is_byte mem /\
    iterate_codepoints 4 (utf8_ops_on char_is_signed mem) 0 3 = Ok [0xE9; 0x61] /\
    codepoint_size_on char_is_signed 0xE9 = Ok 3 /\
    bounds_check_on char_is_signed [0xC3; 0; 0] 0 1 = Ok true /\
    bounds_check_on char_is_signed [0xA9; 0; 0] 0 1 = Ok false /\
    it_assign_on char_is_signed [0; 0; 0] 0 0xE9 = Ok ([0xC3; 0xA9; 0], 1) /\
    utf8_append_from_utf32ne_on char_is_signed [] [0xE9; 0x61] = Ok [0xC3; 0xA9; 0x61].
Proof.
  repeat split; try reflexivity; try (destruct char_is_signed; vm_compute; reflexivity). repeat constructor; unfold is_byte; lia.
Qed.
