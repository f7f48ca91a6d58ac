(** * Properties C01-C11: iterating UTF-8 strings and classifying octets

    Reading guide.  [utf8_text cs] is the UTF-8 text of the codepoints [cs]
    (Utf8Spec.v); [string_buffer s] is the memory of a std::string with octets [s]
    (the octets and the terminating NUL), so that any access outside of it is
    undefined behaviour ([UB _]) in the model.  [zlen] is the length.  Iterators
    are octet positions.  [Ok x] means the operation is defined and yields [x]. *)
From Verif Require Import Prelude Utf8Model TextModel Utf8Spec IterProofs ByteProofs SequenceProofs ExactProofs.

(** ** C01.  In a std::string that contains exactly the UTF-8 text of [cs], both
    client loops visit exactly [cs] and stop. *)
Theorem C01_forward_iteration_string : forall cs fuel,
  Forall codepoint31 cs -> (length cs < fuel)%nat ->
  let s := utf8_text cs in
  iterate_codepoints fuel (utf8_ops (string_buffer s)) 0 (zlen s) = Ok cs /\
  iterate_codepoints_for fuel (utf8_ops (string_buffer s)) 0 (zlen s) = Ok cs.
Proof. exact forward_string. Qed.
Print Assumptions C01_forward_iteration_string.

(** The same for a view anywhere in a larger buffer, followed by some codepoint
    [c] and arbitrary octets. *)
Theorem C01_forward_iteration_view : forall before cs c after fuel,
  Forall codepoint31 cs -> codepoint31 c -> (length cs < fuel)%nat ->
  let mem := before ++ utf8_text cs ++ utf8_encode c ++ after in
  let b := zlen before in
  let e := zlen before + zlen (utf8_text cs) in
  iterate_codepoints fuel (utf8_ops mem) b e = Ok cs /\
  iterate_codepoints_for fuel (utf8_ops mem) b e = Ok cs.
Proof. exact forward_view. Qed.
Print Assumptions C01_forward_iteration_view.

Example C01_example : (* "aé€😀" and the largest 31-bit value *)
  let cs := [0x61; 0xE9; 0x20AC; 0x1F600; 0x7FFFFFFF] in
  Forall codepoint31 cs /\
  utf8_text cs = [0x61; 0xC3; 0xA9; 0xE2; 0x82; 0xAC; 0xF0; 0x9F; 0x98; 0x80;
                  0xFD; 0xBF; 0xBF; 0xBF; 0xBF; 0xBF] /\
  iterate_codepoints 6 (utf8_ops (string_buffer (utf8_text cs))) 0 16 = Ok cs.
Proof. split; [repeat constructor; unfold codepoint31; lia|]. split; vm_compute; reflexivity. Qed.

(** ** C02 *)
Theorem C02_backward_iteration : forall before cs c after fuel,
  Forall codepoint31 cs -> codepoint31 c -> (length cs < fuel)%nat ->
  let mem := before ++ utf8_text cs ++ utf8_encode c ++ after in
  iterate_backwards fuel (utf8_ops mem) (zlen before + zlen (utf8_text cs)) (zlen before)
  = Ok (rev cs).
Proof. exact backward_view. Qed.
Print Assumptions C02_backward_iteration.

Example C02_example :
  iterate_backwards 4 (utf8_ops (string_buffer (utf8_text [0x61; 0xE9; 0x20AC]))) 6 0
  = Ok [0x20AC; 0xE9; 0x61].
Proof. vm_compute. reflexivity. Qed.

(** ** C03.  [p] and [q] are any two adjacent codepoint boundaries of a text. *)
Theorem C03_inc_dec_inverse : forall before c d after,
  codepoint31 c -> codepoint31 d ->
  let mem := before ++ utf8_encode c ++ utf8_encode d ++ after in
  let p := zlen before in
  let q := zlen before + zlen (utf8_encode c) in
  it_preinc mem p = Ok q /\ it_predec mem q = Ok p.
Proof. exact inc_dec_inverse. Qed.
Print Assumptions C03_inc_dec_inverse.
(** Postfix ++ and -- move like the prefix ones, and return where the iterator was; for
    any memory and position (undefined if the prefix one is). *)
Theorem C03_postfix : forall mem p,
  (forall old q, it_postinc mem p = Ok (old, q) <-> old = p /\ it_preinc mem p = Ok q) /\
  (forall old q, it_postdec mem p = Ok (old, q) <-> old = p /\ it_predec mem p = Ok q) /\
  (forall u, it_postinc mem p = UB u <-> it_preinc mem p = UB u) /\
  (forall u, it_postdec mem p = UB u <-> it_predec mem p = UB u).
Proof. exact postfix_prefix. Qed.
Print Assumptions C03_postfix.
Example C03_example : (* "aé": from the a and back *)
  it_postinc (string_buffer (utf8_text [0x61; 0xE9])) 1 = Ok (1, 3) /\
  it_postdec (string_buffer (utf8_text [0x61; 0xE9])) 3 = Ok (3, 1).
Proof. split; vm_compute; reflexivity. Qed.

(** ** C04.  [start + j] is any octet of the codepoint [c]; the results do not
    depend on [j].  Dereferencing also leaves the iterator at [start]. *)
Theorem C04_inside_a_codepoint : forall before c after j,
  codepoint31 c -> 0 <= j < zlen (utf8_encode c) ->
  let mem := before ++ utf8_encode c ++ after in
  let start := zlen before in
  it_deref mem (start + j) = Ok (c, start) /\
  it_preinc mem (start + j) = Ok (start + zlen (utf8_encode c)) /\
  utf8_native_const_iterator mem (start + j) = Ok start.
Proof. exact inside_codepoint. Qed.
Print Assumptions C04_inside_a_codepoint.

Theorem C04_inside_a_codepoint_decrement : forall before c0 c after j,
  codepoint31 c0 -> codepoint31 c -> 0 <= j < zlen (utf8_encode c) ->
  let mem := before ++ utf8_encode c0 ++ utf8_encode c ++ after in
  it_predec mem (zlen before + zlen (utf8_encode c0) + j) = Ok (zlen before).
Proof. exact inside_codepoint_dec. Qed.
Print Assumptions C04_inside_a_codepoint_decrement.

Example C04_example : (* the third octet of a three octet codepoint, after "é" *)
  it_deref (utf8_text [0xE9; 0x20AC; 0x41]) 4 = Ok (0x20AC, 2) /\
  it_predec (utf8_text [0xE9; 0x20AC; 0x41]) 4 = Ok 0 /\
  it_preinc (utf8_text [0xE9; 0x20AC; 0x41]) 4 = Ok 5.
Proof. repeat split; vm_compute; reflexivity. Qed.

(** ** C05.  Position [r] is within codepoint number [k] of the text (number
    [length cs] being the end) when it is one of its octets. *)
Theorem C05_equality_is_same_codepoint : forall cs i j p q,
  Forall codepoint31 cs ->
  let all := cs ++ [0] in
  let within k r := zlen (utf8_text (firstn k all)) <= r < zlen (utf8_text (firstn (S k) all)) in
  (i <= length cs)%nat -> (j <= length cs)%nat -> within i p -> within j q ->
  it_eq (string_buffer (utf8_text cs)) p q = Ok (Nat.eqb i j).
Proof. exact equality_same_codepoint. Qed.
Print Assumptions C05_equality_is_same_codepoint.

Theorem C05_equality_is_an_equivalence : forall cs p q r,
  Forall codepoint31 cs ->
  let s := utf8_text cs in
  let mem := string_buffer s in
  0 <= p <= zlen s -> 0 <= q <= zlen s -> 0 <= r <= zlen s ->
  it_eq mem p p = Ok true /\
  it_eq mem p q = it_eq mem q p /\
  (it_eq mem p q = Ok true -> it_eq mem q r = Ok true -> it_eq mem p r = Ok true) /\
  (exists b, it_eq mem p q = Ok b /\ it_neq mem p q = Ok (negb b)).
Proof. exact equality_equivalence. Qed.
Print Assumptions C05_equality_is_an_equivalence.

Example C05_example : (* in "a€b": octets 1,2,3 are the same codepoint, 0 and 4 are not *)
  let mem := string_buffer (utf8_text [0x61; 0x20AC; 0x62]) in
  it_eq mem 1 3 = Ok true /\ it_eq mem 3 2 = Ok true /\ it_eq mem 0 1 = Ok false /\
  it_eq mem 3 4 = Ok false /\ it_eq mem 5 5 = Ok true.
Proof. repeat split; vm_compute; reflexivity. Qed.

(** ** C06.  False for arbitrary bytes: in "\xC3A" the iterator at 0 equals the one
    at 1 but not conversely.  (C05 is the part that holds.) *)
Theorem C06_equality_symmetric_refuted : exists s p q,
  Forall octet_upto_FD s /\ 0 <= p <= zlen s /\ 0 <= q <= zlen s /\
  it_eq (string_buffer s) p q = Ok true /\ it_eq (string_buffer s) q p = Ok false.
Proof.
  exists [0xC3; 0x41], 0, 1. unfold octet_upto_FD.
  split; [repeat constructor; lia|]. repeat split; try (cbn; lia); vm_compute; reflexivity.
Qed.
Print Assumptions C06_equality_symmetric_refuted.
(** What a == b means on arbitrary octets: b lies in the extent announced by the lead octet
    of a (and the comparison runs out of the string if a is cut short by more than the
    terminator and b lies before it). *)
Theorem C06_equality_meaning_partial : forall s p q r, Forall octet_upto_FD s -> ~ continuation_octet (octet s 0) ->
  0 <= p <= zlen s -> 0 <= q <= zlen s -> closest_lead (string_buffer s) p r ->
  let stop := r + announced_len (octet s r) in
  (it_eq (string_buffer s) p q = Ok true <-> r <= q < stop) /\
  (it_eq (string_buffer s) p q = UB BadPointer <-> q < r /\ zlen s + 1 < stop) /\
  (it_eq (string_buffer s) p q = Ok false <-> stop <= q \/ (q < r /\ stop <= zlen s + 1)).
Proof. exact equality_meaning. Qed.
Print Assumptions C06_equality_meaning_partial.
(** So it is symmetric exactly on texts all of whose sequences are complete. *)
Theorem C06_equality_symmetric_iff_partial : forall s, Forall octet_upto_FD s -> ~ continuation_octet (octet s 0) ->
  ((forall p q, 0 <= p <= zlen s -> 0 <= q <= zlen s ->
      it_eq (string_buffer s) p q = it_eq (string_buffer s) q p) <-> complete_text s).
Proof. exact equality_symmetric_iff. Qed.
Print Assumptions C06_equality_symmetric_iff_partial.
Example C06_example : (* an overlong form is complete; and the closest lead octet of the second octet of "\xC3A" *)
  complete_text [0xC0; 0x80; 0x41] /\ closest_lead (string_buffer [0xC3; 0x41]) 1 1 /\
  it_eq (string_buffer [0x61; 0xE2]) 1 0 = UB BadPointer.
Proof.
  split; [|split; [|vm_compute; reflexivity]].
  - exists [[0xC0; 0x80]; [0x41]]. split; [reflexivity|]. repeat constructor.
    + exists 0xC0, [0x80]. unfold continuation_octet. split; [reflexivity|]. split; [lia|]. split; [repeat constructor; lia|reflexivity].
    + exists 0x41, []. unfold continuation_octet. split; [reflexivity|]. split; [lia|]. split; [constructor|reflexivity].
  - split; [lia|]. split; [change (octet (string_buffer [0xC3; 0x41]) 1) with 0x41; unfold continuation_octet; lia|]. intros k K. lia.
Qed.

(** ** C07.  Whatever the octets of the string are (but 0xFE, 0xFF, and a
    continuation octet in front), and however long the loop runs, nothing
    undefined happens, in particular no access outside of the string and its
    terminator. *)
Theorem C07_forward_loop_memory_safe : forall s fuel,
  Forall octet_upto_FD s -> ~ continuation_octet (octet s 0) ->
  (forall u, iterate_codepoints fuel (utf8_ops (string_buffer s)) 0 (zlen s) <> UB u) /\
  (forall u, iterate_codepoints_for fuel (utf8_ops (string_buffer s)) 0 (zlen s) <> UB u).
Proof.
  exact (fun s fuel H1 H2 => byte_loop_safe s _
    (byte_env_string s H1 (octet_string_first s H2)) fuel 0 (conj (Z.le_refl 0) (Zle_0_nat _))).
Qed.
Print Assumptions C07_forward_loop_memory_safe.

Example C07_example : (* cut sequences and garbage; the hypotheses are both needed *)
  let s := [0xE2; 0x41; 0xC3; 0xE2; 0x82; 0xF0] in
  Forall octet_upto_FD s /\ ~ continuation_octet (octet s 0) /\
  iterate_codepoints 10 (utf8_ops (string_buffer s)) 0 6 = Ok [0x2043; 0x20B0] /\
  iterate_codepoints 10 (utf8_ops (string_buffer [0x81])) 0 1 = UB BadPointer /\
  iterate_codepoints 10 (utf8_ops (string_buffer (0xFF :: repeat 0x80 7))) 0 8 = UB BadShift.
Proof.
  split; [repeat constructor; unfold octet_upto_FD; lia|].
  split; [vm_compute; intros [_ H2]; discriminate H2|].
  repeat split; vm_compute; reflexivity.
Qed.

(** ** C08.  False: "A\x81" passes check and the loop never ends. *)
Theorem C08_checked_loop_terminates_refuted : exists s,
  Forall octet_upto_FD s /\
  bounds_check (string_buffer s) 0 (zlen s) = Ok true /\
  forall fuel,
    iterate_codepoints fuel (utf8_ops (string_buffer s)) 0 (zlen s) = OutOfFuel /\
    iterate_codepoints_for fuel (utf8_ops (string_buffer s)) 0 (zlen s) = OutOfFuel.
Proof. exact checked_hang. Qed.
Print Assumptions C08_checked_loop_terminates_refuted.
(** Exactly when the loops end, checked or not: when no position they visit ([visited],
    Utf8Spec.v) holds a stray continuation octet. *)
Theorem C08_loop_terminates_iff_partial : forall s, Forall octet_upto_FD s -> ~ continuation_octet (octet s 0) ->
  ((exists fuel cs, iterate_codepoints fuel (utf8_ops (string_buffer s)) 0 (zlen s) = Ok cs) <->
   forall p, visited (string_buffer s) (zlen s) p -> ~ stray (string_buffer s) p) /\
  ((exists fuel cs, iterate_codepoints_for fuel (utf8_ops (string_buffer s)) 0 (zlen s) = Ok cs) <->
   forall p, visited (string_buffer s) (zlen s) p -> ~ stray (string_buffer s) p).
Proof. exact terminates_iff. Qed.
Print Assumptions C08_loop_terminates_iff_partial.
Example C08_example : (* "\xE2A\x81": the stray-looking third octet is inside the extent and not visited *)
  iterate_codepoints 3 (utf8_ops (string_buffer [0xE2; 0x41; 0x81])) 0 3 = Ok [0x2041].
Proof. vm_compute. reflexivity. Qed.

(** ** C09 *)
(** No stray continuation octets: the loop ends after at most one step per octet
    and delivers at most one codepoint per octet. *)
Theorem C09_loop_terminates_without_strays : forall s,
  Forall octet_upto_FD s -> ~ continuation_octet (octet s 0) ->
  (forall p, 0 <= p < zlen s -> ~ stray (string_buffer s) p) ->
  exists cs, (length cs <= length s)%nat /\ Forall codepoint31 cs /\
    forall fuel, (length s < fuel)%nat ->
      iterate_codepoints fuel (utf8_ops (string_buffer s)) 0 (zlen s) = Ok cs /\
      iterate_codepoints_for fuel (utf8_ops (string_buffer s)) 0 (zlen s) = Ok cs.
Proof. exact no_stray_terminates. Qed.
Print Assumptions C09_loop_terminates_without_strays.

(** Standing on a stray continuation octet, the loop never ends. *)
Theorem C09_loop_hangs_on_stray : forall s p fuel,
  Forall octet_upto_FD s -> ~ continuation_octet (octet s 0) ->
  0 <= p < zlen s -> stray (string_buffer s) p ->
  iterate_codepoints fuel (utf8_ops (string_buffer s)) p (zlen s) = OutOfFuel /\
  iterate_codepoints_for fuel (utf8_ops (string_buffer s)) p (zlen s) = OutOfFuel.
Proof. exact stray_hangs. Qed.
Print Assumptions C09_loop_hangs_on_stray.

(** There is nothing in between: the loop ends within one step per octet or never. *)
Theorem C09_loop_ends_quickly_or_never : forall s,
  Forall octet_upto_FD s -> ~ continuation_octet (octet s 0) ->
  (exists cs, (length cs <= length s)%nat /\ Forall codepoint31 cs /\
    forall fuel, (length s < fuel)%nat ->
      iterate_codepoints fuel (utf8_ops (string_buffer s)) 0 (zlen s) = Ok cs /\
      iterate_codepoints_for fuel (utf8_ops (string_buffer s)) 0 (zlen s) = Ok cs) \/
  ((exists p, 0 <= p < zlen s /\ stray (string_buffer s) p) /\
   forall fuel,
      iterate_codepoints fuel (utf8_ops (string_buffer s)) 0 (zlen s) = OutOfFuel /\
      iterate_codepoints_for fuel (utf8_ops (string_buffer s)) 0 (zlen s) = OutOfFuel).
Proof. exact ends_or_never. Qed.
Print Assumptions C09_loop_ends_quickly_or_never.

Example C09_example : (* cut short but without strays; and a stray in third place *)
  (forall p, 0 <= p < 4 -> ~ stray (string_buffer [0xE2; 0x82; 0x41; 0xC3]) p) /\
  iterate_codepoints 5 (utf8_ops (string_buffer [0xE2; 0x82; 0x41; 0xC3])) 0 4 = Ok [0x2081] /\
  stray (string_buffer [0x41; 0x42; 0x81]) 2.
Proof. exact stray_example. Qed.

(** ** C10.  False: on a view whose end is the end of the allocation the loop
    always reads past the end, whatever the (valid) contents. *)
Theorem C10_view_loop_reads_only_the_view_refuted : forall cs fuel,
  Forall codepoint31 cs -> (length cs < fuel)%nat ->
  let s := utf8_text cs in
  iterate_codepoints fuel (utf8_ops s) 0 (zlen s) = UB OobRead.
Proof. exact exact_view_reads_past. Qed.
Print Assumptions C10_view_loop_reads_only_the_view_refuted.

(** What holds: one more octet suffices, as long as it starts some codepoint
    (C01_forward_iteration_view), and its contents do not matter. *)
Theorem C10_view_loop_reads_one_more_octet_partial : forall before cs x after fuel,
  Forall codepoint31 cs -> is_byte x -> ~ continuation_octet x -> (length cs < fuel)%nat ->
  let mem := before ++ utf8_text cs ++ x :: after in
  iterate_codepoints fuel (utf8_ops mem) (zlen before) (zlen before + zlen (utf8_text cs)) = Ok cs.
Proof. exact forward_view_any_octet. Qed.
Print Assumptions C10_view_loop_reads_one_more_octet_partial.

(** ** C11 *)
Theorem C11_octet_classification : forall b, is_byte b ->
  codepoint_size b = Ok (announced_len b) /\
  (is_7bit_character b = true <-> b < 128) /\
  (is_codepoint_continuation b = true <-> continuation_octet b) /\
  (is_codepoint_start b = true <-> 192 <= b).
Proof. exact octet_classification. Qed.
Print Assumptions C11_octet_classification.

(** [announced_len] is the length of the encodings that start with the octet. *)
Theorem C11_announced_len_is_the_length : forall c, codepoint31 c ->
  exists lead tail, utf8_encode c = lead :: tail /\ announced_len lead = zlen (utf8_encode c) /\
    0 <= lead < 254 /\ ~ continuation_octet lead /\ Forall continuation_octet tail.
Proof. exact encode_shape. Qed.
Print Assumptions C11_announced_len_is_the_length.
Example C11_example :
  codepoint_size 0xE2 = Ok 3 /\ codepoint_size 0xFD = Ok 6 /\ is_7bit_character 0x61 = true /\ is_codepoint_continuation 0x82 = true /\
  is_codepoint_start 0x82 = false /\ utf8_encode 0x20AC = [0xE2; 0x82; 0xAC] /\ announced_len 0xE2 = 3.
Proof. repeat split; vm_compute; reflexivity. Qed.

(** ** C67.  Any text made of complete octet sequences, in shortest form or not, is visited
    sequence by sequence, forwards and backwards, and yields the values of the sequences. *)
Theorem C67_iteration_of_complete_sequences : forall before os o after fuel,
  Forall octet_sequence os -> octet_sequence o -> (length os < fuel)%nat ->
  let mem := before ++ concat os ++ o ++ after in
  let b := zlen before in let e := zlen before + zlen (concat os) in
  iterate_codepoints fuel (utf8_ops mem) b e = Ok (map sequence_value os) /\
  iterate_codepoints_for fuel (utf8_ops mem) b e = Ok (map sequence_value os) /\
  iterate_backwards fuel (utf8_ops mem) e b = Ok (rev (map sequence_value os)).
Proof. exact seq_loops. Qed.
Print Assumptions C67_iteration_of_complete_sequences.
(** The shortest forms are among them, with the encoded codepoint as value. *)
Theorem C67_shortest_forms : forall c, codepoint31 c ->
  octet_sequence (utf8_encode c) /\ sequence_value (utf8_encode c) = c.
Proof. exact encode_sequence. Qed.
Print Assumptions C67_shortest_forms.
(** So overlong forms are not rejected: another octet sequence for the same codepoint. *)
Theorem C67_overlong_forms : forall c, 0 <= c < 0x80 ->
  let o := [192 + c / 64; 128 + c mod 64] in
  octet_sequence o /\ o <> utf8_encode c /\
  iterate_codepoints 2 (utf8_ops (string_buffer o)) 0 2 = Ok [c].
Proof.
  intros c C o. assert (H6 : 0 <= c / 64 < 2) by (split; [apply Z.div_pos; lia|apply Z.div_lt_upper_bound; lia]).
  pose proof (Z.mod_pos_bound c 64 ltac:(lia)) as M.
  assert (O : octet_sequence o).
  { split.
    - exists (192 + c / 64), [128 + c mod 64]. split; [reflexivity|]. unfold continuation_octet. split; [lia|].
      split; [repeat constructor; lia|]. unfold announced_len. destruct (Z.ltb_spec (192 + c / 64) 192); [lia|].
      destruct (Z.ltb_spec (192 + c / 64) 224); [reflexivity|lia].
    - repeat constructor; unfold octet_upto_FD; lia. }
  split; [assumption|]. split.
  { unfold o, utf8_encode. destruct (Z.ltb_spec c 128); [discriminate|lia]. }
  destruct (seq_loops [] [o] [0] [] 2 (Forall_cons _ O (Forall_nil _)) nul_sequence ltac:(cbn; lia)) as (A & _).
  cbn [concat app] in A. rewrite app_nil_r in A. cbn [map] in A. change (zlen (@nil Z)) with 0 in A.
  change (0 + zlen o) with 2 in A. change (o ++ [0]) with (string_buffer o) in A. rewrite A. f_equal. f_equal.
  unfold sequence_value, o. cbn [fold_left]. destruct (Z.ltb_spec (192 + c / 64) 128); [lia|].
  assert (AL : announced_len (192 + c / 64) = 2).
  { unfold announced_len. destruct (Z.ltb_spec (192 + c / 64) 192); [lia|]. destruct (Z.ltb_spec (192 + c / 64) 224); [reflexivity|lia]. }
  rewrite AL. change (2 ^ (7 - 2)) with 32.
  replace ((192 + c / 64) mod 32) with (c / 64) by (replace (192 + c / 64) with (c / 64 + 6 * 32) by lia; rewrite Z.mod_add, Z.mod_small by lia; reflexivity).
  replace ((128 + c mod 64) mod 64) with (c mod 64) by (replace (128 + c mod 64) with (c mod 64 + 2 * 64) by lia; rewrite Z.mod_add, Z.mod_mod by lia; reflexivity).
  pose proof (Z.div_mod c 64). lia.
Qed.
Print Assumptions C67_overlong_forms.
Example C67_example : (* "/" in 1, 2, 3 and 6 octets *)
  iterate_codepoints 5 (utf8_ops (string_buffer [0x2F; 0xC0; 0xAF; 0xE0; 0x80; 0xAF; 0xFC; 0x80; 0x80; 0x80; 0x80; 0xAF])) 0 12
  = Ok [0x2F; 0x2F; 0x2F; 0x2F].
Proof. vm_compute. reflexivity. Qed.
