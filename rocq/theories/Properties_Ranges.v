(** * Properties C77-C82: strings of arbitrary octets, and views inside of larger buffers

    [string_buffer s] is the memory of a std::string with octets [s]; positions are octet
    positions; [UB _] is undefined behaviour (a read or a pointer outside of the string and
    its terminating NUL).  [closest_lead], [cut_short] are in Utf8Spec.v; [extent mem r]
    (one past the octets announced by the octet at [r]), [value_at mem r] (the number made
    up by these octets), [forward_walk] and [leads_backwards] in RangeSpec.v. *)
From Verif Require Import Prelude Utf8Model TextModel Utf8Spec RangeSpec LawfulProofs ByteProofs BoundsProofs ExactProofs RangeProofs ViewBounds Properties_Bounds.
Require Import ZifyBool ZifyNat.

(** ** C77.  What the forward loops deliver, whatever the octets: the values found along
    [forward_walk]; and they deliver them unless they stand on a stray continuation octet at
    some point. *)
Theorem C77_forward_loop_values : forall s, Forall octet_upto_FD s -> ~ continuation_octet (octet s 0) ->
  let mem := string_buffer s in
  (forall fuel cs,
     iterate_codepoints fuel (utf8_ops mem) 0 (zlen s) = Ok cs \/ iterate_codepoints_for fuel (utf8_ops mem) 0 (zlen s) = Ok cs ->
     exists rs, forward_walk mem (zlen s) 0 rs /\ cs = map (value_at mem) rs) /\
  (forall rs fuel, (forall p, visited mem (zlen s) p -> ~ stray mem p) -> forward_walk mem (zlen s) 0 rs -> (length rs < fuel)%nat ->
     iterate_codepoints fuel (utf8_ops mem) 0 (zlen s) = Ok (map (value_at mem) rs) /\
     iterate_codepoints_for fuel (utf8_ops mem) 0 (zlen s) = Ok (map (value_at mem) rs)).
Proof. exact forward_values. Qed.
Print Assumptions C77_forward_loop_values.
Example C77_example : (* "\xE2A\xC3" then "B": E2 swallows A and C3 *)
  let mem := string_buffer [0xE2; 0x41; 0xC3; 0x42] in
  forward_walk mem 4 0 [0; 3] /\ map (value_at mem) [0; 3] = [0x2043; 0x42] /\
  iterate_codepoints 3 (utf8_ops mem) 0 4 = Ok [0x2043; 0x42].
Proof.
  cbv zeta. split; [|split; vm_compute; reflexivity].
  assert (L : forall r, In r [0; 3; 4] -> closest_lead (string_buffer [0xE2; 0x41; 0xC3; 0x42]) r r).
  { intros r H. split; [cbn in H; lia|]. split; [|intros k K; lia].
    cbn in H. destruct H as [<-|[<-|[<-|[]]]]; intros [H1 H2]; vm_compute in H1, H2; first [discriminate H2|apply H1; reflexivity]. }
  apply (forward_next _ _ _ 0); [apply L; cbn; auto|vm_compute; discriminate|].
  apply (forward_next _ _ _ 3); [apply L; cbn; auto|vm_compute; discriminate|].
  apply (forward_stop _ _ _ 4); [apply L; cbn; auto|vm_compute; reflexivity].
Qed.

(** ** C78.  False: check() accepts "\xE2", and the loop from the end to the beginning
    reads past the terminating NUL. *)
Theorem C78_checked_backward_loop_is_safe_refuted : exists s, Forall octet_upto_FD s /\
  bounds_check (string_buffer s) 0 (zlen s) = Ok true /\
  forall fuel, (2 <= fuel)%nat -> iterate_backwards fuel (utf8_ops (string_buffer s)) (zlen s) 0 = UB OobRead.
Proof.
  exists [0xE2]. split; [repeat constructor; unfold octet_upto_FD; lia|]. split; [vm_compute; reflexivity|].
  intros [|[|fuel]] H; try lia. vm_compute. reflexivity.
Qed.
Print Assumptions C78_checked_backward_loop_is_safe_refuted.
(** Exactly: it delivers the values at all the octets that are not continuation octets, last
    first, if none of them announces more than one octet too many (the NUL stands in for
    that one), and otherwise reads outside of the string.  It always ends. *)
Theorem C78_backward_loop_result_partial : forall s, Forall octet_upto_FD s -> ~ continuation_octet (octet s 0) ->
  let mem := string_buffer s in
  exists rs, leads_backwards s rs /\ forall fuel, (length s < fuel)%nat ->
    ((forall p, 0 <= p < zlen s -> p + announced_len (octet s p) <= zlen s + 1) ->
       iterate_backwards fuel (utf8_ops mem) (zlen s) 0 = Ok (map (value_at mem) rs)) /\
    ((exists p, 0 <= p < zlen s /\ zlen s + 1 < p + announced_len (octet s p)) ->
       iterate_backwards fuel (utf8_ops mem) (zlen s) 0 = UB OobRead).
Proof. exact backward_result. Qed.
Print Assumptions C78_backward_loop_result_partial.
(** In particular it is safe on strings of six octets or more that check() accepts. *)
Theorem C78_checked_backward_loop_is_safe_partial : forall s, Forall octet_upto_FD s -> 6 <= zlen s ->
  bounds_check (string_buffer s) 0 (zlen s) = Ok true ->
  exists cs, Forall codepoint31 cs /\ (length cs <= length s)%nat /\
    forall fuel, (length s < fuel)%nat ->
      iterate_backwards fuel (utf8_ops (string_buffer s)) (zlen s) 0 = Ok cs.
Proof. exact checked_backward. Qed.
Print Assumptions C78_checked_backward_loop_is_safe_partial.
Example C78_example : (* forwards, E2 swallows A and C3; backwards, every lead octet counts *)
  let s := [0x61; 0xE2; 0x41; 0xC3; 0x42; 0x43] in
  bounds_check (string_buffer s) 0 (zlen s) = Ok true /\
  iterate_codepoints 7 (utf8_ops (string_buffer s)) 0 6 = Ok [0x61; 0x2043; 0x42; 0x43] /\
  iterate_backwards 7 (utf8_ops (string_buffer s)) 6 0 = Ok [0x43; 0x42; 0xC2; 0x41; 0x2043; 0x61].
Proof. cbv zeta. repeat split; vm_compute; reflexivity. Qed.

(** ** C79.  The exact result of each operation of an iterator at any octet of any string.
    Dereferencing and going back belong to the closest octet at or before it that is not a
    continuation octet, with one exception: at a continuation octet after an ASCII octet, only
    the low six bits of the latter are delivered. *)
Theorem C79_iterator_operations_on_any_octets : forall s p r, Forall octet_upto_FD s -> ~ continuation_octet (octet s 0) ->
  0 <= p <= zlen s -> closest_lead (string_buffer s) p r ->
  let mem := string_buffer s in
  it_deref mem p = (if extent mem r <=? zlen s + 1
    then Ok (if (r <? p) && (octet s r <? 128) then octet s r mod 64 else value_at mem r, r) else UB OobRead) /\
  it_preinc mem p = (if extent mem r <=? zlen s + 1 then Ok (extent mem r) else UB BadPointer) /\
  (r = 0 -> it_predec mem p = UB BadPointer) /\
  (forall q, 0 < r -> closest_lead mem (r - 1) q -> it_predec mem p = Ok q) /\
  utf8_native_const_iterator mem p = Ok r.
Proof. intros s p r F N P C. exact (operations_exact s F N p r P C). Qed.
Print Assumptions C79_iterator_operations_on_any_octets.
(** No octet announces octets beyond the end exactly if no increment from within the string
    leaves it; and then the other operations are defined, too. *)
Theorem C79_operations_stay_inside_iff : forall s, Forall octet_upto_FD s -> ~ continuation_octet (octet s 0) ->
  let mem := string_buffer s in
  ((forall p, 0 <= p < zlen s -> ~ cut_short s p) <->
   (forall p, 0 <= p < zlen s -> exists q, it_preinc mem p = Ok q /\ q <= zlen s)) /\
  ((forall p, 0 <= p < zlen s -> ~ cut_short s p) ->
   forall p, 0 <= p < zlen s ->
     (exists c r, it_deref mem p = Ok (c, r) /\ codepoint31 c /\ closest_lead mem p r) /\
     (forall q, 0 <= q <= zlen s -> exists t, it_eq mem p q = Ok t) /\
     (forall r, closest_lead mem p r -> 0 < r -> exists q, it_predec mem p = Ok q /\ 0 <= q < p)).
Proof. exact operations_safe. Qed.
Print Assumptions C79_operations_stay_inside_iff.
(** So, from six octets on, check() tells exactly whether increments can leave the string. *)
Theorem C79_check_means_increments_stay_inside : forall s, Forall octet_upto_FD s -> 6 <= zlen s ->
  (bounds_check (string_buffer s) 0 (zlen s) = Ok true <->
   ~ continuation_octet (octet s 0) /\
   forall p, 0 <= p < zlen s -> exists q, it_preinc (string_buffer s) p = Ok q /\ q <= zlen s).
Proof.
  intros s F L. rewrite (C13_check_sound_on_long_strings_partial s F L). split; intros [N H]; (split; [assumption|]); apply (proj1 (operations_safe s F N)); assumption.
Qed.
Print Assumptions C79_check_means_increments_stay_inside.
Example C79_example : (* "A\x81": the A read at its stray octet is U+0001; "\xE2" *)
  it_deref (string_buffer [0x41; 0x81]) 1 = Ok (0x01, 0) /\ it_deref (string_buffer [0x41; 0x81]) 0 = Ok (0x41, 0) /\
  it_preinc (string_buffer [0x41; 0x81]) 1 = Ok 1 /\ it_deref (string_buffer [0xE2]) 0 = UB OobRead /\
  it_preinc (string_buffer [0xE2]) 0 = UB BadPointer.
Proof. repeat split; vm_compute; reflexivity. Qed.

(** ** C80.  check and enforce on the range [s] inside of a larger buffer, [x] being the
    octet at its end.  (C17 has the refutation of their being local.) *)
Theorem C80_check_of_a_view : forall before s x after r, Forall is_byte (before ++ s ++ x :: after) ->
  let mem := before ++ s ++ x :: after in
  let b := zlen before in let e := zlen before + zlen s in
  (s <> [] -> bounds_check (string_buffer s) 0 (zlen s) = Ok r -> bounds_check mem b e = Ok (r && (x <? 192))) /\
  (s = [] -> (bounds_check mem b e = Ok true <-> ~ continuation_octet x) /\ (bounds_check mem b e = Ok false <-> continuation_octet x)).
Proof.
  intros before s x after r F mem b e. split; [apply check_view; assumption|].
  intros S0. pose proof (check_empty_view before s after x F S0) as H. unfold mem, b, e. rewrite H. unfold continuation_octet.
  destruct (Z.leb_spec 128 x), (Z.ltb_spec x 192); cbn [negb andb]; split; split; intros; try congruence; try lia; try (exfalso; lia).
Qed.
Print Assumptions C80_check_of_a_view.
Theorem C80_enforce_of_a_view : forall before s x after s' r, Forall is_byte (before ++ s ++ x :: after) ->
  bounds_enforce (string_buffer s) 0 (zlen s) = Ok (string_buffer s', r) ->
  let mem := before ++ s ++ x :: after in
  let b := zlen before in let e := zlen before + zlen s in
  (Exists (fun o => ~ continuation_octet o) s -> x < 192 -> bounds_enforce mem b e = Ok (before ++ s' ++ x :: after, r)) /\
  (Exists (fun o => ~ continuation_octet o) s -> 192 <= x -> bounds_enforce mem b e = Ok (before ++ s' ++ 63 :: after, false)) /\
  (Forall continuation_octet s -> ~ continuation_octet x -> bounds_enforce mem b e = Ok (before ++ s' ++ x :: after, r)).
Proof.
  intros before s x after s' r F R mem b e. destruct (enforce_view before s after x F s' r R) as [A B]. split; [|split].
  - intros X H. specialize (A X). unfold mem, b, e. rewrite A. replace (192 <=? x) with false by lia. replace (x <? 192) with true by lia. rewrite andb_true_r. reflexivity.
  - intros X H. specialize (A X). unfold mem, b, e. rewrite A. replace (192 <=? x) with true by lia. replace (x <? 192) with false by lia. rewrite andb_false_r. reflexivity.
  - exact B.
Qed.
Print Assumptions C80_enforce_of_a_view.
(** The remaining case: the range and the octets from its end up to [f] are all continuation
    octets.  Then enforce overwrites all of them, and lead octets BEFORE the range as well; if
    the range ends within the first six octets of the allocation, it leaves it at the front, and
    if there is no other octet up to the end of the allocation, at the back. *)
Theorem C80_enforce_runs_away : forall mem b e, Forall is_byte mem -> 0 <= b <= e ->
  (forall f, e < f < zlen mem -> (forall k, b <= k < f -> continuation_octet (octet mem k)) -> ~ continuation_octet (octet mem f) ->
     (e <= 5 -> bounds_enforce mem b e = UB BadPointer) /\
     (6 <= e -> exists mem', bounds_enforce mem b e = Ok (mem', false) /\ length mem' = length mem /\
        forall k, 0 <= k < zlen mem ->
          let replaced := b <= k < f \/ (k < b /\ e - k <= 5 /\ 192 <= octet mem k /\ e < extent mem k) in
          (replaced -> octet mem' k = 63) /\ (~ replaced -> octet mem' k = octet mem k))) /\
  (b <= zlen mem -> (forall k, b <= k < zlen mem -> continuation_octet (octet mem k)) -> bounds_enforce mem b e = UB OobRead).
Proof.
  intros mem b e F H. split.
  - intros f Hf A N. apply (enforce_runaway mem b e f); (assumption || lia).
  - intros L A. apply enforce_off_end; (assumption || lia).
Qed.
Print Assumptions C80_enforce_runs_away.
Example C80_example : (* the range "\x81" of "abcdef\xE2\x81\x82g", and of "\xE2\x81\x82g" *)
  bounds_enforce [0x61; 0x62; 0x63; 0x64; 0x65; 0x66; 0xE2; 0x81; 0x82; 0x67] 7 8
  = Ok ([0x61; 0x62; 0x63; 0x64; 0x65; 0x66; 63; 63; 63; 0x67], false) /\
  bounds_enforce [0xE2; 0x81; 0x82; 0x67] 1 2 = UB BadPointer /\
  bounds_enforce [0x61; 0xE2; 0x41; 0xC3; 0x67] 0 3 = Ok ([0x61; 63; 0x41; 63; 0x67], false).
Proof. repeat split; vm_compute; reflexivity. Qed.

(** ** C81.  enforce applied to its own result: the second time the text passes check, the
    third time nothing changes any more; if the text does not start with a continuation octet
    nothing changes the second time. *)
Theorem C81_enforce_settles : forall s, Forall is_byte s -> exists s1 r1 s2 r2,
  bounds_enforce (string_buffer s) 0 (zlen s) = Ok (string_buffer s1, r1) /\
  bounds_enforce (string_buffer s1) 0 (zlen s1) = Ok (string_buffer s2, r2) /\
  bounds_check (string_buffer s2) 0 (zlen s2) = Ok true /\
  bounds_enforce (string_buffer s2) 0 (zlen s2) = Ok (string_buffer s2, true) /\
  (~ continuation_octet (octet s 0) -> s2 = s1).
Proof. exact enforce_twice. Qed.
Print Assumptions C81_enforce_settles.
Example C81_example : (* "\x81\xC3": "?\xC3", then "??" *)
  bounds_enforce (string_buffer [0x81; 0xC3]) 0 2 = Ok (string_buffer [63; 0xC3], false) /\
  bounds_enforce (string_buffer [63; 0xC3]) 0 2 = Ok (string_buffer [63; 63], false) /\
  bounds_enforce (string_buffer [63; 63]) 0 2 = Ok (string_buffer [63; 63], true).
Proof. repeat split; vm_compute; reflexivity. Qed.

(** ** C82.  append(first, last) with iterators at any octets of any string: it copies the
    octets from the closest lead octet of [first] to the one of [last], and nothing else. *)
Theorem C82_append_of_any_octets : forall s out p q rp rq, Forall octet_upto_FD s -> ~ continuation_octet (octet s 0) ->
  0 <= p <= zlen s -> 0 <= q <= zlen s ->
  closest_lead (string_buffer s) p rp -> closest_lead (string_buffer s) q rq -> rp <= rq ->
  exists a m z, s = a ++ m ++ z /\ zlen a = rp /\ zlen a + zlen m = rq /\
    utf8_append out (string_buffer s) p q = Ok (out ++ m).
Proof. intros s out p q rp rq F N P Q CP CQ L. exact (proj1 (append_octets s F N out p q rp rq P Q CP CQ) L). Qed.
Print Assumptions C82_append_of_any_octets.
(** So truncating any string to [n] octets gives a prefix of at most [n] octets that
    never ends inside of a sequence: the octet after it is not a continuation octet, and the ones
    from there to [n] are. *)
Theorem C82_truncation_of_any_octets : forall s n, Forall octet_upto_FD s -> ~ continuation_octet (octet s 0) ->
  0 <= n <= zlen s ->
  exists m z, s = m ++ z /\ zlen m <= n /\ ~ continuation_octet (octet s (zlen m)) /\
    (forall k, zlen m < k <= n -> continuation_octet (octet s k)) /\
    utf8_append [] (string_buffer s) 0 n = Ok m.
Proof. exact truncate_octets. Qed.
Print Assumptions C82_truncation_of_any_octets.
Example C82_example : (* "a\xE2A\x81\xC3" from inside to inside *)
  utf8_append [0x3E] (string_buffer [0x61; 0xE2; 0x82; 0x41; 0x81; 0xC3]) 2 4 = Ok [0x3E; 0xE2; 0x82].
Proof. vm_compute. reflexivity. Qed.
