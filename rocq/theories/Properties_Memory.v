(** * Properties C88-C91: iterators and ranges at any place of any memory

    [mem] is the whole allocation, any octets; positions are octet positions; [UB _] is
    undefined behaviour.  Unlike in Properties_Ranges.v nothing is assumed about a
    terminating NUL, or about what comes before or after the range.  [closest_lead],
    [leading_continuation], [stray] are in Utf8Spec.v, [extent], [value_at], [forward_walk] in
    RangeSpec.v, [reached], [covers], [leads_between] in MemSpec.v. *)
From Verif Require Import Prelude Utf8Model TextModel Utf8Spec RangeSpec MemSpec LawfulProofs ByteProofs RangeProofs MemProofs MemLoops MemViews IterProofs Properties_Iteration.
Require Import ZifyBool ZifyNat.

(** ** C88.  Each operation of an iterator at any octet of any memory, 0xFE and 0xFF
    included.  First when only continuation octets are at or before it ... *)
Theorem C88_operations_without_lead_octet : forall mem p, Forall is_byte mem -> 0 <= p < zlen mem ->
  leading_continuation mem p ->
  it_deref mem p = UB BadPointer /\ it_preinc mem p = UB BadPointer /\ it_predec mem p = UB BadPointer /\
  (forall q, it_eq mem p q = UB BadPointer) /\ utf8_native_const_iterator mem p = UB BadPointer.
Proof. intros mem p F. exact (none_ops mem F p). Qed.
Print Assumptions C88_operations_without_lead_octet.
(** ... then with a closest octet [r] that is not a continuation octet (one of the two cases
    always applies, [C88_one_of_the_two]). *)
Theorem C88_operations_with_lead_octet : forall mem p r, Forall is_byte mem -> 0 <= p < zlen mem ->
  closest_lead mem p r ->
  it_preinc mem p = (if extent mem r <=? zlen mem then Ok (extent mem r) else UB BadPointer) /\
  (forall q, closest_lead mem (r - 1) q -> it_predec mem p = Ok q) /\
  (leading_continuation mem (r - 1) -> it_predec mem p = UB BadPointer) /\
  (forall q, q <= zlen mem -> it_eq mem p q =
     if q <? r then (if extent mem r <=? zlen mem then Ok false else UB BadPointer) else Ok (q <? extent mem r)) /\
  utf8_native_const_iterator mem p = Ok r.
Proof.
  intros mem p r F P R. destruct (dec_lead mem F p r P R) as (D1 & D2).
  split; [apply inc_lead; assumption|]. split; [assumption|]. split; [assumption|].
  split; [intros q Q; apply eq_lead; assumption|apply native_lead; assumption].
Qed.
Print Assumptions C88_operations_with_lead_octet.
(** Dereferencing.  0xFF is always undefined; the 36 bits of a 0xFE sequence are delivered as
    a (possibly negative) int if they fit in 32 bits, and undefined otherwise. *)
Theorem C88_dereferencing : forall mem p r, Forall is_byte mem -> 0 <= p < zlen mem -> closest_lead mem p r ->
  (octet mem r < 128 -> it_deref mem p = Ok (if r <? p then octet mem r mod 64 else octet mem r, r)) /\
  (octet mem r = 255 -> it_deref mem p = UB BadShift) /\
  (octet mem r <> 255 -> zlen mem < extent mem r -> it_deref mem p = UB OobRead) /\
  (128 <= octet mem r -> octet mem r <> 255 -> extent mem r <= zlen mem ->
     (value_at mem r < 2 ^ 31 -> it_deref mem p = Ok (value_at mem r, r)) /\
     (2 ^ 31 <= value_at mem r < 2 ^ 32 -> it_deref mem p = Ok (value_at mem r - 2 ^ 32, r)) /\
     (2 ^ 32 <= value_at mem r -> it_deref mem p = UB BadShift)).
Proof. intros mem p r F. exact (deref_lead mem F p r). Qed.
Print Assumptions C88_dereferencing.
(** Only 0xFE and 0xFF can deliver something that is not a codepoint below 2^31. *)
Theorem C88_values_up_to_FD : forall mem r, Forall octet_upto_FD mem -> 0 <= value_at mem r < 2 ^ 31.
Proof. intros mem r U. pose proof (value_small mem U r). lia. Qed.
Print Assumptions C88_values_up_to_FD.
Theorem C88_one_of_the_two : forall mem p, 0 <= p ->
  ((exists r, closest_lead mem p r) \/ leading_continuation mem p) /\
  ~ ((exists r, closest_lead mem p r) /\ leading_continuation mem p).
Proof.
  intros mem p P. split; [apply lead_or_not; assumption|]. intros ((r & R1 & R2 & _) & N). apply R2. apply N. assumption.
Qed.
Print Assumptions C88_one_of_the_two.
Example C88_example : (* FE and six octets: -1 and 2^32; FF; a range that starts with 82 *)
  it_deref [0xFE; 0x83; 0xBF; 0xBF; 0xBF; 0xBF; 0xBF] 3 = Ok (-1, 0) /\
  it_deref [0xFE; 0x84; 0x80; 0x80; 0x80; 0x80; 0x80] 0 = UB BadShift /\
  it_deref [0xFE; 0x80; 0x80; 0x80; 0x80; 0x82; 0xAC] 0 = Ok (0xAC, 0) /\
  it_deref [0xFF; 0x80] 1 = UB BadShift /\ it_deref [0x82; 0x41] 0 = UB BadPointer /\
  it_preinc [0xFE; 0x80] 1 = UB BadPointer.
Proof. repeat split; vm_compute; reflexivity. Qed.

(** ** C89.  The forward loops over any range, whatever is before and after it.  There are
    three cases. *)
Theorem C89_forward_loop_over_any_range : forall mem b e, Forall octet_upto_FD mem -> 0 <= b <= e -> e < zlen mem ->
  let loop := fun f => iterate_codepoints f (utf8_ops mem) b e in
  let for_loop := fun f => iterate_codepoints_for f (utf8_ops mem) b e in
  (leading_continuation mem b -> forall f, (0 < f)%nat -> loop f = UB BadPointer /\ for_loop f = UB BadPointer) /\
  (forall rs f, forward_walk mem e b rs -> (length rs < f)%nat ->
     loop f = Ok (map (value_at mem) rs) /\ for_loop f = Ok (map (value_at mem) rs)) /\
  ((exists x, reached mem e b x /\ stray mem x) -> forall f, loop f = OutOfFuel /\ for_loop f = OutOfFuel) /\
  (leading_continuation mem b \/
   (exists rs, (length rs <= S (Z.to_nat (e - b)))%nat /\ forward_walk mem e b rs) \/
   exists x, reached mem e b x /\ stray mem x).
Proof. intros mem b e U Hb He loop for_loop. apply (forward_any mem U e); lia. Qed.
Print Assumptions C89_forward_loop_over_any_range.
(** The loops depend on nothing after the octet at the end of the range, and on nothing before
    the codepoint the range starts in. *)
Theorem C89_forward_loop_depends_on : forall mem mem' r b e f, Forall octet_upto_FD mem -> Forall octet_upto_FD mem' ->
  0 <= b <= e -> e < zlen mem -> e < zlen mem' -> closest_lead mem b r ->
  (forall k, r <= k <= e -> octet mem k = octet mem' k) ->
  iterate_codepoints f (utf8_ops mem) b e = iterate_codepoints f (utf8_ops mem') b e /\
  iterate_codepoints_for f (utf8_ops mem) b e = iterate_codepoints_for f (utf8_ops mem') b e.
Proof.
  intros mem mem' r b e f U U' B E E' R A. pose proof R as (R1 & R2 & _).
  apply (agree_loop mem mem' U U' e r); (assumption || lia).
Qed.
Print Assumptions C89_forward_loop_depends_on.
Example C89_example : (* the second and third octet of the euro sign, then "a": the whole sign comes out *)
  iterate_codepoints 3 (utf8_ops [0x41; 0xE2; 0x82; 0xAC; 0x61; 0x62]) 2 5 = Ok [0x20AC; 0x61] /\
  forward_walk [0x41; 0xE2; 0x82; 0xAC; 0x61; 0x62] 5 2 [1; 4] /\
  leading_continuation [0x82; 0xAC; 0x61; 0x62] 1.
Proof.
  split; [vm_compute; reflexivity|]. split.
  - assert (L : forall p r, In (p, r) [(2, 1); (4, 4); (5, 5)] -> closest_lead [0x41; 0xE2; 0x82; 0xAC; 0x61; 0x62] p r).
    { intros p r H. cbn in H. destruct H as [H|[H|[H|[]]]]; injection H as <- <-; (split; [lia|]); (split; [intros [H1 H2]; vm_compute in H1, H2; first [discriminate H2|apply H1; reflexivity]|]);
        intros k K; try lia. replace k with 2 by lia. split; vm_compute; [discriminate|reflexivity]. }
    apply (forward_next _ _ _ 1); [apply L; cbn; auto|vm_compute; discriminate|].
    apply (forward_next _ _ _ 4); [apply L; cbn; auto|vm_compute; discriminate|].
    apply (forward_stop _ _ _ 5); [apply L; cbn; auto|vm_compute; reflexivity].
  - intros i I. assert (D : i = 0 \/ i = 1) by lia. destruct D as [->| ->]; split; vm_compute; (discriminate || reflexivity).
Qed.

(** ** C10, continued.  If the octet after a view of valid text is a continuation octet, e.g.
    because the view is a part of a cut text, the loop over it never ends; so the loop
    delivers the text exactly if that octet exists and is not a continuation octet. *)
Theorem C10_view_before_continuation_octet_hangs_partial : forall before cs x after f,
  cs <> [] -> Forall codepoint31 cs -> continuation_octet x -> Forall octet_upto_FD (before ++ after) ->
  let mem := before ++ utf8_text cs ++ x :: after in
  let b := zlen before in let e := zlen before + zlen (utf8_text cs) in
  iterate_codepoints f (utf8_ops mem) b e = OutOfFuel /\ iterate_codepoints_for f (utf8_ops mem) b e = OutOfFuel.
Proof. intros before cs x after f N C X U. exact (view_hangs before cs x after N C X U f). Qed.
Print Assumptions C10_view_before_continuation_octet_hangs_partial.
Theorem C10_view_loop_iff_partial : forall before cs x after,
  cs <> [] -> Forall codepoint31 cs -> is_byte x -> Forall octet_upto_FD (before ++ after) ->
  let mem := before ++ utf8_text cs ++ x :: after in
  ((exists f, iterate_codepoints f (utf8_ops mem) (zlen before) (zlen before + zlen (utf8_text cs)) = Ok cs) <->
   ~ continuation_octet x).
Proof.
  intros before cs x after N C X U mem. split.
  - intros (f & E) CX. destruct (view_hangs before cs x after N C CX U f) as (H & _). cbv zeta in H. fold mem in H. congruence.
  - intros NX. exists (S (length cs)). apply C10_view_loop_reads_one_more_octet_partial; (assumption || lia).
Qed.
Print Assumptions C10_view_loop_iff_partial.
Example C10_more_example : (* the view "é" of "é" and a left over octet *)
  iterate_codepoints 100 (utf8_ops [0xC3; 0xA9; 0x82; 0x41]) 0 2 = OutOfFuel.
Proof. vm_compute. reflexivity. Qed.

(** ** C90.  The loop from the end to the beginning of any range.  [r] is the lead octet of
    the end; the loop stops at the last lead octet at or before it whose announced octets contain
    the beginning, wherever that is; if there is none it runs out of the memory.  It always ends. *)
Theorem C90_backward_loop_over_any_range : forall mem e b r, Forall octet_upto_FD mem ->
  0 <= e < zlen mem -> 0 <= b <= zlen mem -> closest_lead mem e r -> forall f, (Z.to_nat e < f)%nat ->
  let loop := iterate_backwards f (utf8_ops mem) e b in
  (b < r -> zlen mem < extent mem r -> loop = UB BadPointer) /\
  ((b < r -> extent mem r <= zlen mem) ->
    (forall x rs, 0 <= x <= r -> covers mem x b -> (forall y, x < y <= r -> ~ covers mem y b) -> leads_between mem x r rs ->
       ((forall y, In y rs -> extent mem y <= zlen mem) -> loop = Ok (map (value_at mem) rs)) /\
       ((exists y, In y rs /\ zlen mem < extent mem y) -> loop = UB OobRead)) /\
    ((forall x, 0 <= x <= r -> ~ covers mem x b) -> exists u, loop = UB u)).
Proof. intros mem e b r U He Hb R f L loop. exact (backward_any mem U e b r He Hb R f L). Qed.
Print Assumptions C90_backward_loop_over_any_range.
(** In particular from the end to a beginning that is not a continuation octet: every
    lead octet from there on counts. *)
Theorem C90_backward_loop_to_a_lead_octet : forall mem e b r rs, Forall octet_upto_FD mem ->
  0 <= b <= e -> e < zlen mem -> ~ continuation_octet (octet mem b) -> closest_lead mem e r -> leads_between mem b r rs ->
  (forall y, b <= y <= r -> extent mem y <= zlen mem) -> forall f, (Z.to_nat e < f)%nat ->
  iterate_backwards f (utf8_ops mem) e b = Ok (map (value_at mem) rs).
Proof.
  intros mem e b r rs U Hb He NB R LB X f L. pose proof R as (R1 & R2 & R3).
  assert (BR : b <= r). { destruct (Z.leb_spec b r); [assumption|]. exfalso. apply NB. apply R3. lia. }
  destruct (backward_any mem U e b r ltac:(lia) ltac:(lia) R f L) as (_ & A). destruct A as (A & _); [intros _; apply X; lia|].
  pose proof (Utf8Proofs.announced_len_range (octet mem b)) as AR.
  destruct (A b rs) as (A1 & _); try assumption; try lia.
  - split; [assumption|]. unfold extent. lia.
  - intros y Y (_ & C). lia.
  - apply A1. intros y Y. apply (proj1 LB) in Y. apply X. lia.
Qed.
Print Assumptions C90_backward_loop_to_a_lead_octet.
Example C90_example : (* "A\x81B": beginning at the stray octet: nothing before it covers it, so the loop leaves the memory *)
  iterate_backwards 4 (utf8_ops [0x41; 0x81; 0x42; 0]) 3 1 = UB BadPointer /\
  iterate_backwards 4 (utf8_ops [0x41; 0x81; 0x42; 0]) 3 0 = Ok [0x42; 0x41] /\
  iterate_backwards 5 (utf8_ops [0xE2; 0x41; 0x81; 0x42; 0]) 4 2 = Ok [0x42; 0x41; 0x2041].
Proof. repeat split; vm_compute; reflexivity. Qed.

(** ** C91.  append(first, last) with iterators at any octets of any memory. *)
Theorem C91_append_from_any_memory : forall mem out p q, Forall octet_upto_FD mem -> 0 <= p < zlen mem -> 0 <= q < zlen mem ->
  (forall rp rq, closest_lead mem p rp -> closest_lead mem q rq ->
     (rp <= rq -> exists a m z, mem = a ++ m ++ z /\ zlen a = rp /\ zlen a + zlen m = rq /\ utf8_append out mem p q = Ok (out ++ m)) /\
     (rq < rp -> utf8_append out mem p q = UB OobRead)) /\
  (leading_continuation mem p \/ leading_continuation mem q -> utf8_append out mem p q = UB BadPointer).
Proof. intros mem out p q U. exact (append_any mem U out p q). Qed.
Print Assumptions C91_append_from_any_memory.
Example C91_example : (* from inside "é" to inside the euro sign *)
  utf8_append [0x3E] [0x41; 0xC3; 0xA9; 0xE2; 0x82; 0xAC] 2 5 = Ok [0x3E; 0xC3; 0xA9] /\
  utf8_append [] [0x82; 0x41] 0 1 = UB BadPointer.
Proof. split; vm_compute; reflexivity. Qed.
