(** * C20, C21 and C23, exactly: every [int] given to the encoder, and what is read back *)
From Verif Require Import Prelude Utf8Model TextModel Utf8Spec EncodeProofs ReadBack ReadBackMore.

(** ** C20 for every value of type [int], codepoint or not.  A negative value always makes
    the code form a pointer beyond its 6-octet buffer. *)
Theorem C20_any_int_defined_iff_partial : forall c, - 2 ^ 31 <= c < 2 ^ 31 ->
  let overrun := c < 0 \/
                 (0x800 <= c <= 0x1FFF /\ 62 <= (c / 64) mod 64) \/
                 (0x10000 <= c <= 0x7FFFF /\ 30 <= (c / 4096) mod 32) \/
                 (0x200000 <= c <= 0x1FFFFFF /\ 14 <= (c / 262144) mod 16) \/
                 (0x4000000 <= c /\ 6 <= (c / 16777216) mod 8) in
  ((exists l, utf8_append_from_utf32ne [] [c] = Ok l) <-> c <> 0 /\ ~ overrun) /\
  (utf8_append_from_utf32ne [] [c] = UB ClzZero <-> c = 0) /\
  (utf8_append_from_utf32ne [] [c] = UB BadPointer <-> overrun).
Proof.
  intros c H. rewrite append_one. apply encode_one_int. unfold int32. change (2 ^ 31) with 2147483648 in H. lia.
Qed.
Print Assumptions C20_any_int_defined_iff_partial.

Theorem C20_any_ints_defined_iff_partial : forall cs, Forall (fun c => - 2 ^ 31 <= c < 2 ^ 31) cs -> forall out,
  ((exists l, utf8_append_from_utf32ne out cs = Ok l) <->
   forall c, In c cs -> c <> 0 /\
     ~ (c < 0 \/
        (0x800 <= c <= 0x1FFF /\ 62 <= (c / 64) mod 64) \/
        (0x10000 <= c <= 0x7FFFF /\ 30 <= (c / 4096) mod 32) \/
        (0x200000 <= c <= 0x1FFFFFF /\ 14 <= (c / 262144) mod 16) \/
        (0x4000000 <= c /\ 6 <= (c / 16777216) mod 8))).
Proof.
  intros cs F out. apply append_int_defined_iff. eapply Forall_impl; [|exact F]. intros c H. cbv beta in H. unfold int32.
  change (2 ^ 31) with 2147483648 in H. lia.
Qed.
Print Assumptions C20_any_ints_defined_iff_partial.
Example C20_any_int_example : utf8_append_from_utf32ne [] [-1] = UB BadPointer /\
  utf8_append_from_utf32ne [] [0x7FFFFFFF] = UB BadPointer /\
  utf8_append_from_utf32ne [] [0x7DFFFFFF] = Ok [0xFD; 0xBF; 0xBF; 0xBF; 0xBF; 0].
Proof. repeat split; vm_compute; reflexivity. Qed.

(** ** C21.  Whatever was written (without undefined behaviour), iterating over it ends after
    exactly as many codepoints as were written, and each is read back unchanged exactly when
    it is in one of the ranges the encoder sizes correctly. *)
Theorem C21_each_codepoint_read_back_iff : forall cs s fuel,
  (forall c, In c cs -> 0 <= c < 2 ^ 31) -> utf8_append_from_utf32ne [] cs = Ok s -> (length cs < fuel)%nat ->
  exists vs, iterate_codepoints fuel (utf8_ops (string_buffer s)) 0 (zlen s) = Ok vs /\
    Forall2 (fun c v => v = c <->
      1 <= c <= 0x7FF \/ 0x2000 <= c <= 0xFFFF \/ 0x80000 <= c <= 0x1FFFFF \/ 0x2000000 <= c <= 0x3FFFFFF) cs vs.
Proof. intros cs s fuel F. apply read_back_text. apply Forall_forall. exact F. Qed.
Print Assumptions C21_each_codepoint_read_back_iff.

Theorem C21_text_read_back_iff : forall cs s fuel,
  Forall unicode_codepoint cs -> utf8_append_from_utf32ne [] cs = Ok s -> (length cs < fuel)%nat ->
  (iterate_codepoints fuel (utf8_ops (string_buffer s)) 0 (zlen s) = Ok cs <->
   forall c, In c cs -> 1 <= c <= 0x7FF \/ 0x2000 <= c <= 0xFFFF \/ 0x80000 <= c <= 0x10FFFF).
Proof.
  intros cs s fuel F E L. rewrite (read_back_text_iff cs s fuel); try assumption.
  - rewrite Forall_forall in F. split; intros H c I; specialize (H c I); specialize (F c I); unfold unicode_codepoint, sized_ok in *; lia.
  - eapply Forall_impl; [|exact F]. intros c. unfold unicode_codepoint, codepoint31. change (2 ^ 31) with 2147483648. lia.
Qed.
Print Assumptions C21_text_read_back_iff.
Example C21_exact_example : (* U+0905 and U+10348 are the ones spoiled *)
  utf8_append_from_utf32ne [] [0x41; 0x905; 0x20AC; 0x10348; 0x10FFFF]
  = Ok [0x41; 0xE4; 0x85; 0; 0xE2; 0x82; 0xAC; 0xF0; 0x8D; 0x88; 0; 0xF4; 0x8F; 0xBF; 0xBF] /\
  iterate_codepoints 9 (utf8_ops (string_buffer
    [0x41; 0xE4; 0x85; 0; 0xE2; 0x82; 0xAC; 0xF0; 0x8D; 0x88; 0; 0xF4; 0x8F; 0xBF; 0xBF])) 0 15
  = Ok [0x41; 0x4140; 0x20AC; 0xD200; 0x10FFFF].
Proof. split; vm_compute; reflexivity. Qed.

(** ** C23.  Into fresh room (seven NUL octets, all the reader may look at): the assignment
    never goes wrong, and the codepoint is read back exactly on the same ranges. *)
Theorem C23_read_back_iff_partial : forall before after c, 1 <= c <= 0x10FFFF ->
  exists mem q, it_assign (before ++ repeat 0 7 ++ after) (zlen before) c = Ok (mem, q) /\
    ((exists r, it_deref mem q = Ok (c, r)) <->
     1 <= c <= 0x7FF \/ 0x2000 <= c <= 0xFFFF \/ 0x80000 <= c <= 0x10FFFF).
Proof.
  intros before after c Hc. destruct (assign_read_back before after c ltac:(lia)) as (mem & q & E & I).
  exists mem, q. split; [assumption|]. rewrite I. unfold sized_ok. lia.
Qed.
Print Assumptions C23_read_back_iff_partial.

(** In room that is not fresh the wrong octets can still, by accident, spell the codepoint:
    U+0820 written over spaces reads back. *)
Example C23_not_fresh_example : exists mem q,
  it_assign (repeat 0x20 7) 0 0x820 = Ok (mem, q) /\ it_deref mem q = Ok (0x820, 0) /\
  firstn 3 mem <> utf8_encode 0x820.
Proof. do 2 eexists. split; [vm_compute; reflexivity|]. split; [vm_compute; reflexivity|]. vm_compute. discriminate. Qed.
