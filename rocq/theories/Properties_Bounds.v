(** * Properties C12-C18: utf8_bounds::check and utf8_bounds::enforce

    [string_buffer s] is the memory of a std::string with octets [s]; the
    functions are called with begin = 0 and end = zlen s.  [octet s p] is the
    octet at position [p], [cut_short s p] says that it announces octets beyond the
    end of [s] (Utf8Spec.v). *)
From Verif Require Import Prelude Utf8Model TextModel Utf8Spec BoundsProofs ExactProofs.

(** ** C12 *)
Theorem C12_check_accepts_valid_text : forall cs, Forall codepoint31 cs ->
  let s := utf8_text cs in bounds_check (string_buffer s) 0 (zlen s) = Ok true.
Proof. exact check_accepts_valid. Qed.
Print Assumptions C12_check_accepts_valid_text.

Example C12_example :
  bounds_check (string_buffer []) 0 0 = Ok true /\
  bounds_check (string_buffer (utf8_text [0x1F600; 0x20AC])) 0 7 = Ok true.
Proof. split; vm_compute; reflexivity. Qed.

(** ** C13.  False: "\xE2" passes, although its only octet announces three, and
    incrementing an iterator on it leaves the string. *)
Theorem C13_check_sound_refuted : exists s, Forall octet_upto_FD s /\
  bounds_check (string_buffer s) 0 (zlen s) = Ok true /\ cut_short s 0 /\
  it_preinc (string_buffer s) 0 = UB BadPointer.
Proof. exact check_unsound. Qed.
Print Assumptions C13_check_sound_refuted.

(** What holds for every string: the exact meaning of the result.  The first
    octet is not examined as a lead octet, nor are octets more than five
    positions before the end. *)
Theorem C13_check_meaning_partial : forall s, Forall is_byte s ->
  (bounds_check (string_buffer s) 0 (zlen s) = Ok true <->
   ~ continuation_octet (octet s 0) /\
   forall p, 1 <= p < zlen s -> zlen s - p <= 5 -> ~ cut_short s p).
Proof. exact check_meaning. Qed.
Print Assumptions C13_check_meaning_partial.

(** Consequently it is sound and complete on strings of six octets or more
    without 0xFE and 0xFF. *)
Theorem C13_check_sound_on_long_strings_partial : forall s,
  Forall octet_upto_FD s -> 6 <= zlen s ->
  (bounds_check (string_buffer s) 0 (zlen s) = Ok true <->
   ~ continuation_octet (octet s 0) /\ forall p, 0 <= p < zlen s -> ~ cut_short s p).
Proof. exact check_sound_long. Qed.
Print Assumptions C13_check_sound_on_long_strings_partial.

Example C13_example :
  bounds_check (string_buffer [0x61; 0x62; 0x63; 0x64; 0xE2; 0x82]) 0 6 = Ok false /\
  bounds_check (string_buffer [0x61; 0x62; 0x63; 0xE2; 0x82; 0xAC]) 0 6 = Ok true.
Proof. split; vm_compute; reflexivity. Qed.

(** ** C14 *)
Theorem C14_enforce_agrees_with_check : forall s, Forall is_byte s ->
  exists r s', bounds_check (string_buffer s) 0 (zlen s) = Ok r /\
    bounds_enforce (string_buffer s) 0 (zlen s) = Ok (string_buffer s', r) /\
    (r = true -> s' = s) /\ (r = false -> s' <> s).
Proof. exact enforce_agrees. Qed.
Print Assumptions C14_enforce_agrees_with_check.
Example C14_example : (* U+20AC cut short at the end; and complete *)
  bounds_check (string_buffer [0x61; 0x62; 0x63; 0x64; 0xE2; 0x82]) 0 6 = Ok false /\
  bounds_enforce (string_buffer [0x61; 0x62; 0x63; 0x64; 0xE2; 0x82]) 0 6 = Ok (string_buffer [0x61; 0x62; 0x63; 0x64; 63; 0x82], false) /\
  bounds_enforce (string_buffer [0x61; 0x62; 0x63; 0xE2; 0x82; 0xAC]) 0 6 = Ok (string_buffer [0x61; 0x62; 0x63; 0xE2; 0x82; 0xAC], true).
Proof. repeat split; vm_compute; reflexivity. Qed.

(** ** C15.  [replaced] describes exactly the octets that become "?" (63). *)
Theorem C15_enforce_effect : forall s, Forall is_byte s ->
  exists s' r, bounds_enforce (string_buffer s) 0 (zlen s) = Ok (string_buffer s', r) /\
    length s' = length s /\
    forall k, 0 <= k < zlen s ->
      let replaced := leading_continuation s k \/
        (cut_short s k /\ zlen s - k <= 5 /\ exists i, 0 <= i < k /\ ~ continuation_octet (octet s i)) in
      (replaced -> octet s' k = 63) /\ (~ replaced -> octet s' k = octet s k).
Proof. exact enforce_effect. Qed.
Print Assumptions C15_enforce_effect.

Example C15_example :
  bounds_enforce (string_buffer [0x81; 0x82; 0x61; 0xE2; 0x62; 0xC3; 0xE2]) 0 7
  = Ok (string_buffer [63; 63; 0x61; 0xE2; 0x62; 0xC3; 63], false).
Proof. vm_compute. reflexivity. Qed.

(** ** C16.  False when the text starts with continuation octets: "\x81\xC3" becomes
    "?\xC3", which check rejects. *)
Theorem C16_enforced_text_passes_check_refuted : exists s s' r,
  Forall octet_upto_FD s /\
  bounds_enforce (string_buffer s) 0 (zlen s) = Ok (string_buffer s', r) /\
  bounds_check (string_buffer s') 0 (zlen s') = Ok false.
Proof.
  exists [0x81; 0xC3], [63; 0xC3], false.
  split; [repeat constructor; unfold octet_upto_FD; lia|]. split; vm_compute; reflexivity.
Qed.
Print Assumptions C16_enforced_text_passes_check_refuted.

(** Exactly that situation: the first non-continuation octet is not the first octet and is
    cut short by the end of the string. *)
Theorem C16_enforced_text_passes_check_iff_partial : forall s, Forall is_byte s ->
  exists s' r, bounds_enforce (string_buffer s) 0 (zlen s) = Ok (string_buffer s', r) /\
    (bounds_check (string_buffer s') 0 (zlen s') = Ok true <->
     ~ exists k, 1 <= k /\ (forall i, 0 <= i < k -> continuation_octet (octet s i)) /\
         zlen s - k <= 5 /\ cut_short s k).
Proof. exact enforced_check_iff. Qed.
Print Assumptions C16_enforced_text_passes_check_iff_partial.
(** In particular it holds whenever the text does not start with a continuation octet. *)
Theorem C16_enforced_text_passes_check_partial : forall s,
  Forall is_byte s -> ~ continuation_octet (octet s 0) ->
  exists s' r, bounds_enforce (string_buffer s) 0 (zlen s) = Ok (string_buffer s', r) /\
    bounds_check (string_buffer s') 0 (zlen s') = Ok true.
Proof. exact enforce_then_check. Qed.
Print Assumptions C16_enforced_text_passes_check_partial.

Example C16_example : (* "a\xE2" *)
  ~ continuation_octet (octet [0x61; 0xE2] 0) /\
  bounds_enforce (string_buffer [0x61; 0xE2]) 0 2 = Ok (string_buffer [0x61; 63], false).
Proof. split; [unfold octet, continuation_octet; cbn; lia|vm_compute; reflexivity]. Qed.

(** ** C17.  False: the octet at [end] matters to check and may be overwritten by
    enforce (view "a" of "aé"). *)
Theorem C17_bounds_functions_are_local_refuted : exists m1 m2 b e m' r,
  Forall octet_upto_FD m1 /\ Forall octet_upto_FD m2 /\ 0 <= b <= e /\ e < zlen m1 /\ e < zlen m2 /\
  (forall k, b <= k < e -> octet m1 k = octet m2 k) /\
  bounds_check m1 b e = Ok true /\ bounds_check m2 b e = Ok false /\
  bounds_enforce m2 b e = Ok (m', r) /\ octet m' e <> octet m2 e.
Proof. exact bounds_not_local. Qed.
Print Assumptions C17_bounds_functions_are_local_refuted.

(** True when the octet at [end] is ASCII, e.g. the terminator of a std::string. *)
Theorem C17_check_is_local_partial : forall m1 m2 b e,
  Forall is_byte m1 -> Forall is_byte m2 ->
  0 <= b <= e -> e < zlen m1 -> e < zlen m2 ->
  octet m1 e < 128 -> octet m2 e < 128 ->
  (forall k, b <= k < e -> octet m1 k = octet m2 k) ->
  bounds_check m1 b e = bounds_check m2 b e.
Proof. exact check_local. Qed.
Print Assumptions C17_check_is_local_partial.

Theorem C17_enforce_is_local_partial : forall mem b e,
  Forall is_byte mem -> 0 <= b <= e -> e < zlen mem -> octet mem e < 128 ->
  exists mem' r, bounds_enforce mem b e = Ok (mem', r) /\ length mem' = length mem /\
    forall k, 0 <= k < zlen mem -> ~ (b <= k < e) -> octet mem' k = octet mem k.
Proof. exact enforce_local. Qed.
Print Assumptions C17_enforce_is_local_partial.

(** ** C18.  False: "a\xE2\x82" becomes "a?\x82", on which the loop hangs. *)
Theorem C18_enforced_text_can_be_iterated_refuted : exists s s' r,
  Forall octet_upto_FD s /\
  bounds_enforce (string_buffer s) 0 (zlen s) = Ok (string_buffer s', r) /\
  forall fuel,
    iterate_codepoints fuel (utf8_ops (string_buffer s')) 0 (zlen s') = OutOfFuel.
Proof. exact enforced_hangs. Qed.
Print Assumptions C18_enforced_text_can_be_iterated_refuted.

(** The exact condition: no position visited in the enforced text holds a stray
    continuation octet. *)
Theorem C18_enforced_text_can_be_iterated_iff_partial : forall s, Forall octet_upto_FD s ->
  exists s' r, bounds_enforce (string_buffer s) 0 (zlen s) = Ok (string_buffer s', r) /\ length s' = length s /\
    ((exists fuel cs, iterate_codepoints fuel (utf8_ops (string_buffer s')) 0 (zlen s') = Ok cs) <->
     forall p, visited (string_buffer s') (zlen s') p -> ~ stray (string_buffer s') p).
Proof. exact enforced_terminates_iff. Qed.
Print Assumptions C18_enforced_text_can_be_iterated_iff_partial.
(** What holds always: after enforce the loop is memory safe. *)
Theorem C18_enforced_text_is_safe_partial : forall s, Forall octet_upto_FD s ->
  exists s' r, bounds_enforce (string_buffer s) 0 (zlen s) = Ok (string_buffer s', r) /\
    forall fuel,
    (forall u, iterate_codepoints fuel (utf8_ops (string_buffer s')) 0 (zlen s') <> UB u) /\
    (forall u, iterate_codepoints_for fuel (utf8_ops (string_buffer s')) 0 (zlen s') <> UB u).
Proof. exact enforced_safe. Qed.
Print Assumptions C18_enforced_text_is_safe_partial.

Example C18_example : (* "\x81a\xC3" becomes "?a?" *)
  bounds_enforce (string_buffer [0x81; 0x61; 0xC3]) 0 3 = Ok (string_buffer [63; 0x61; 63], false) /\
  iterate_codepoints 4 (utf8_ops (string_buffer [63; 0x61; 63])) 0 3 = Ok [63; 0x61; 63].
Proof. split; vm_compute; reflexivity. Qed.
