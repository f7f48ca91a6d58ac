(** * Properties C19-C25: encoding UTF-8, writing through iterators, append

    [sized_ok c] (EncodeProofs.v) is the set
      1..7FF, 2000..FFFF, 80000..1FFFFF, 2000000..3FFFFFF (hex).
    [overruns c] is the set of codepoints below 80000 for which the first octet the
    code produces is FE or FF. *)
From Verif Require Import Prelude Utf8Model TextModel Utf8Spec EncodeProofs AppendProofs EncodeMore.

(** ** C19.  False: U+0800..U+1FFF and U+10000..U+7FFFF are encoded wrongly, e.g.
    U+0900 becomes E4 80 00. *)
Theorem C19_append_encodes_refuted : exists c, unicode_codepoint c /\
  utf8_append_from_utf32ne [] [c] = Ok [0xE4; 0x80; 0] /\
  utf8_text [c] = [0xE0; 0xA4; 0x80].
Proof.
  exists 0x900. split; [unfold unicode_codepoint; lia|]. split; vm_compute; reflexivity.
Qed.
Print Assumptions C19_append_encodes_refuted.

(** What holds, for texts of any length: correct on the listed ranges ... *)
Theorem C19_append_encodes_partial : forall out cs,
  (forall c, In c cs -> 1 <= c <= 0x7FF \/ 0x2000 <= c <= 0xFFFF \/ 0x80000 <= c <= 0x10FFFF) ->
  utf8_append_from_utf32ne out cs = Ok (out ++ utf8_text cs).
Proof. exact append_unicode_ok. Qed.
Print Assumptions C19_append_encodes_partial.

(** ... and on no other codepoint. *)
Theorem C19_encoding_correct_iff_partial : forall c, unicode_codepoint c ->
  (utf8_append_from_utf32ne [] [c] = Ok (utf8_text [c]) <->
   1 <= c <= 0x7FF \/ 0x2000 <= c <= 0xFFFF \/ 0x80000 <= c <= 0x10FFFF).
Proof. exact append_one_iff. Qed.
Print Assumptions C19_encoding_correct_iff_partial.

(** A whole text is encoded correctly exactly when each of its codepoints is. *)
Theorem C19_text_encoded_correctly_iff_partial : forall out cs, Forall unicode_codepoint cs ->
  (utf8_append_from_utf32ne out cs = Ok (out ++ utf8_text cs) <->
   forall c, In c cs -> 1 <= c <= 0x7FF \/ 0x2000 <= c <= 0xFFFF \/ 0x80000 <= c <= 0x10FFFF).
Proof. exact append_text_unicode_iff. Qed.
Print Assumptions C19_text_encoded_correctly_iff_partial.

Example C19_example :
  utf8_append_from_utf32ne [0x3E] [0x41; 0xE9; 0x20AC; 0x10FFFF]
  = Ok [0x3E; 0x41; 0xC3; 0xA9; 0xE2; 0x82; 0xAC; 0xF4; 0x8F; 0xBF; 0xBF].
Proof. vm_compute. reflexivity. Qed.

(** ** C20.  False: U+1F600 makes the code form (and read up to) a pointer beyond its
    6-octet buffer, U+0000 is an undefined __builtin_clz(0). *)
Theorem C20_encoding_memory_safe_refuted :
  utf8_append_from_utf32ne [] [0x1F600] = UB BadPointer /\
  utf8_append_from_utf32ne [] [0x1FFF] = UB BadPointer /\
  utf8_append_from_utf32ne [] [0] = UB ClzZero.
Proof. repeat split; vm_compute; reflexivity. Qed.
Print Assumptions C20_encoding_memory_safe_refuted.

(** The exact set of codepoints for which it is defined. *)
Theorem C20_encoding_defined_iff_partial : forall c, unicode_codepoint c ->
  let overrun := (0x800 <= c <= 0x1FFF /\ 62 <= (c / 64) mod 64) \/
                 (0x10000 <= c <= 0x7FFFF /\ 30 <= (c / 4096) mod 32) in
  ((exists l, utf8_append_from_utf32ne [] [c] = Ok l) <-> c <> 0 /\ ~ overrun) /\
  (utf8_append_from_utf32ne [] [c] = UB ClzZero <-> c = 0) /\
  (utf8_append_from_utf32ne [] [c] = UB BadPointer <-> overrun).
Proof. exact append_one_defined_iff. Qed.
Print Assumptions C20_encoding_defined_iff_partial.

(** A whole text is encoded without undefined behaviour exactly when each codepoint is. *)
Theorem C20_text_encoding_defined_iff_partial : forall cs, Forall unicode_codepoint cs -> forall out,
  ((exists l, utf8_append_from_utf32ne out cs = Ok l) <->
   forall c, In c cs -> c <> 0 /\
     ~ ((0x800 <= c <= 0x1FFF /\ 62 <= (c / 64) mod 64) \/
        (0x10000 <= c <= 0x7FFFF /\ 30 <= (c / 4096) mod 32))).
Proof. exact append_defined_iff. Qed.
Print Assumptions C20_text_encoding_defined_iff_partial.
Example C20_example : (* defined, though not all are encoded correctly *)
  exists l, utf8_append_from_utf32ne [] [0x41; 0x905; 0x10348; 0x10FFFF] = Ok l.
Proof. eexists. vm_compute. reflexivity. Qed.

(** ** C21.  Stated, as in properties.jsonl, for the ranges the encoder handles; outside
    them it fails: *)
Theorem round_trip_outside_the_ranges_fails : exists c s l, unicode_codepoint c /\
  utf8_append_from_utf32ne [] [c] = Ok s /\
  iterate_codepoints 10 (utf8_ops (string_buffer s)) 0 (zlen s) = Ok l /\ l <> [c].
Proof.
  exists 0x1000, [0xC0; 0x80], [0]. split; [unfold unicode_codepoint; lia|].
  split; [vm_compute; reflexivity|]. split; [vm_compute; reflexivity|discriminate].
Qed.
Print Assumptions round_trip_outside_the_ranges_fails.

Theorem C21_round_trip : forall cs fuel,
  (forall c, In c cs -> 1 <= c <= 0x7FF \/ 0x2000 <= c <= 0xFFFF \/ 0x80000 <= c <= 0x10FFFF) ->
  (length cs < fuel)%nat ->
  exists s, utf8_append_from_utf32ne [] cs = Ok s /\
    iterate_codepoints fuel (utf8_ops (string_buffer s)) 0 (zlen s) = Ok cs.
Proof. exact append_round_trip. Qed.
Print Assumptions C21_round_trip.

(** ** C22.  The room [old] is fresh (ASCII, e.g. NUL) octets. *)
Theorem C22_writing_text_refuted : exists c mem it, unicode_codepoint c /\
  write_codepoints (repeat 0 6) 0 [c] = Ok (mem, it) /\ firstn 3 mem <> utf8_encode c /\
  zlen (utf8_encode c) = 3.
Proof.
  exists 0x900. eexists. eexists. split; [unfold unicode_codepoint; lia|].
  split; [vm_compute; reflexivity|]. split; [vm_compute; discriminate|reflexivity].
Qed.
Print Assumptions C22_writing_text_refuted.

Theorem C22_writing_text_partial : forall before old after cs,
  (forall c, In c cs -> 1 <= c <= 0x7FF \/ 0x2000 <= c <= 0xFFFF \/ 0x80000 <= c <= 0x10FFFF) ->
  (forall b, In b old -> 0 <= b < 128) ->
  zlen old = zlen (utf8_text cs) ->
  write_codepoints (before ++ old ++ after) (zlen before) cs
  = Ok (before ++ utf8_text cs ++ after, zlen before + zlen (utf8_text cs)).
Proof. exact write_text_unicode. Qed.
Print Assumptions C22_writing_text_partial.

(** On no other text: the condition is exact. *)
Theorem C22_writing_text_iff_partial : forall before old after cs,
  Forall unicode_codepoint cs -> Forall is_byte before -> Forall is_byte after ->
  (forall b, In b old -> 0 <= b < 128) -> zlen old = zlen (utf8_text cs) ->
  (write_codepoints (before ++ old ++ after) (zlen before) cs
   = Ok (before ++ utf8_text cs ++ after, zlen before + zlen (utf8_text cs)) <->
   forall c, In c cs -> 1 <= c <= 0x7FF \/ 0x2000 <= c <= 0xFFFF \/ 0x80000 <= c <= 0x10FFFF).
Proof. exact write_text_unicode_iff. Qed.
Print Assumptions C22_writing_text_iff_partial.

Example C22_example :
  write_codepoints [0x78; 0; 0; 0; 0; 0; 0x79] 1 [0xE9; 0x20AC]
  = Ok ([0x78; 0xC3; 0xA9; 0xE2; 0x82; 0xAC; 0x79], 6).
Proof. vm_compute. reflexivity. Qed.

(** ** C23.  After the assignment the iterator is at [q], still within [c]. *)
Theorem C23_read_back_refuted : exists c mem q v r, unicode_codepoint c /\
  it_assign (repeat 0 6) 0 c = Ok (mem, q) /\ it_deref mem q = Ok (v, r) /\ v <> c.
Proof.
  exists 0x900. do 4 eexists. split; [unfold unicode_codepoint; lia|].
  split; [vm_compute; reflexivity|]. split; [vm_compute; reflexivity|discriminate].
Qed.
Print Assumptions C23_read_back_refuted.

Theorem C23_read_back_partial : forall before old after c,
  1 <= c <= 0x7FF \/ 0x2000 <= c <= 0xFFFF \/ 0x80000 <= c <= 0x10FFFF ->
  (forall b, In b old -> 0 <= b < 128) -> zlen old = zlen (utf8_encode c) ->
  exists mem q, it_assign (before ++ old ++ after) (zlen before) c = Ok (mem, q) /\
    mem = before ++ utf8_encode c ++ after /\
    zlen before <= q < zlen before + zlen (utf8_encode c) /\
    it_deref mem q = Ok (c, zlen before).
Proof. exact write_read_back. Qed.
Print Assumptions C23_read_back_partial.

(** ** C24.  False: the second assignment starts at the last octet of the first. *)
Theorem C24_assigning_twice_refuted : exists m1 q1 m2 q2,
  it_assign (repeat 0 4) 0 0xE9 = Ok (m1, q1) /\ it_assign m1 q1 0x61 = Ok (m2, q2) /\
  m2 = [0xC3; 0x61; 0; 0].
Proof. do 4 eexists. repeat split; vm_compute; reflexivity. Qed.
Print Assumptions C24_assigning_twice_refuted.

(** True when the first codepoint is ASCII. *)
Theorem C24_assigning_twice_ascii_partial : forall before x old after c d,
  1 <= c < 128 -> 1 <= d <= 0x7FF \/ 0x2000 <= d <= 0xFFFF \/ 0x80000 <= d <= 0x10FFFF ->
  0 <= x < 128 -> zlen (x :: old) = zlen (utf8_encode d) ->
  exists m q, it_assign (before ++ x :: old ++ after) (zlen before) c = Ok (m, q) /\
    it_assign m q d = Ok (before ++ utf8_encode d ++ after, zlen before + zlen (utf8_encode d) - 1).
Proof. exact assign_twice_unicode. Qed.
Print Assumptions C24_assigning_twice_ascii_partial.

(** Never true when the first codepoint is not ASCII: the second codepoint lands on the last
    octet of the first, so that [d] is not what stands at the position. *)
Theorem C24_assigning_twice_fails_partial : forall before old after c d,
  1 <= c <= 0x7FF \/ 0x2000 <= c <= 0xFFFF \/ 0x80000 <= c <= 0x10FFFF ->
  1 <= d <= 0x7FF \/ 0x2000 <= d <= 0xFFFF \/ 0x80000 <= d <= 0x10FFFF ->
  128 <= c -> (forall b, In b old -> 0 <= b < 128) ->
  zlen old = zlen (utf8_encode c) + zlen (utf8_encode d) - 1 ->
  exists m q, it_assign (before ++ old ++ after) (zlen before) c = Ok (m, q) /\
    it_assign m q d = Ok (before ++ removelast (utf8_encode c) ++ utf8_encode d ++ after,
                          zlen before + zlen (utf8_encode c) + zlen (utf8_encode d) - 2) /\
    firstn (length (utf8_encode d)) (removelast (utf8_encode c) ++ utf8_encode d ++ after) <> utf8_encode d.
Proof.
  intros before old after c d Hc Hd C FO L.
  apply assign_twice; try assumption; [apply sized_ok_of_unicode..|apply Forall_ascii]; assumption.
Qed.
Print Assumptions C24_assigning_twice_fails_partial.
Example C24_example : (* U+20AC, then U+00E9 *)
  it_assign (repeat 0 4) 0 0x20AC = Ok ([0xE2; 0x82; 0xAC; 0], 2) /\
  it_assign [0xE2; 0x82; 0xAC; 0] 2 0xE9 = Ok ([0xE2; 0x82; 0xC3; 0xA9], 3).
Proof. split; vm_compute; reflexivity. Qed.

(** ** C25.  [p] lies within codepoint number [i] and [q] within number [j] (number
    [length cs] being the end); the appended text is codepoints i, ..., j-1. *)
Theorem C25_append_whole_codepoints : forall cs i j p q out,
  Forall codepoint31 cs ->
  let all := cs ++ [0] in
  let within k r := zlen (utf8_text (firstn k all)) <= r < zlen (utf8_text (firstn (S k) all)) in
  (i <= j <= length cs)%nat -> within i p -> within j q ->
  utf8_append out (string_buffer (utf8_text cs)) p q
  = Ok (out ++ utf8_text (firstn (j - i) (skipn i cs))).
Proof. exact append_whole_codepoints. Qed.
Print Assumptions C25_append_whole_codepoints.

(** The longest prefix of whole codepoints of at most [n] octets. *)
Theorem C25_append_truncates : forall cs n,
  Forall codepoint31 cs -> 0 <= n <= zlen (utf8_text cs) ->
  exists k, (k <= length cs)%nat /\
    utf8_append [] (string_buffer (utf8_text cs)) 0 n = Ok (utf8_text (firstn k cs)) /\
    zlen (utf8_text (firstn k cs)) <= n /\
    ((k < length cs)%nat -> n < zlen (utf8_text (firstn (S k) cs))).
Proof. exact append_truncates. Qed.
Print Assumptions C25_append_truncates.

Example C25_example : (* "a€b" cut at 3 octets *)
  utf8_append [] (string_buffer (utf8_text [0x61; 0x20AC; 0x62])) 0 3 = Ok [0x61].
Proof. vm_compute. reflexivity. Qed.

(** ** C68.  [f] is any function from codepoints to codepoints whose encodings are as long as
    those of its arguments, within the ranges the encoder handles (C19).  [x] is whatever
    stands behind the text (the NUL of a string, the next codepoint of a longer text). *)
Theorem C68_replacing_in_place : forall f before cs x after fuel,
  Forall codepoint31 cs -> codepoint31 x ->
  (forall c, In c cs ->
     (1 <= f c <= 0x7FF \/ 0x2000 <= f c <= 0xFFFF \/ 0x80000 <= f c <= 0x10FFFF) /\
     zlen (utf8_encode (f c)) = zlen (utf8_encode c)) ->
  (length cs < fuel)%nat ->
  let mem := before ++ utf8_text cs ++ utf8_encode x ++ after in
  let b := zlen before in let e := zlen before + zlen (utf8_text cs) in
  replace_codepoints fuel f mem b e
  = Ok (before ++ utf8_text (map f cs) ++ utf8_encode x ++ after) /\
  transform_codepoints fuel f mem b e b
  = Ok (before ++ utf8_text (map f cs) ++ utf8_encode x ++ after, e).
Proof.
  intros f before cs x after fuel F X H L. apply replace_text; try assumption.
  intros c I. destruct (H c I) as [R E]. split; [apply sized_ok_of_unicode|]; assumption.
Qed.
Print Assumptions C68_replacing_in_place.
(** The restriction to equal lengths is needed.  Shorter: stripping the accent of "\xC3\xA9A"
    gives "e%A"; longer: the next codepoint is overwritten. *)
Theorem in_place_with_other_lengths_fails :
  replace_codepoints 10 (fun c => if c =? 0xE9 then 0x65 else c) (string_buffer (utf8_text [0xE9; 0x41])) 0 3
  = Ok (string_buffer [0x65; 0x25; 0x41]) /\
  replace_codepoints 10 (fun c => if c =? 0x65 then 0xE9 else c) (string_buffer (utf8_text [0x65; 0x41; 0x42])) 0 3
  = Ok (string_buffer [0xC3; 0xA9; 0x42]).
Proof. split; vm_compute; reflexivity. Qed.
Print Assumptions in_place_with_other_lengths_fails.
Example C68_example : (* upper case, a with grave etc. *)
  let f c := if (0x61 <=? c) && (c <=? 0x7A) || (0xE0 <=? c) && (c <=? 0xF6) then c - 32 else c in
  replace_codepoints 10 f (string_buffer (utf8_text [0x61; 0xE9; 0x20AC; 0x62])) 0 7
  = Ok (string_buffer (utf8_text [0x41; 0xC9; 0x20AC; 0x42])).
Proof. vm_compute. reflexivity. Qed.
