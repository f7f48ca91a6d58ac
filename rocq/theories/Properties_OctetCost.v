(** * Property C116: how many octets the UTF-8 iterators read

    [m = Ok (x, k)] for a counted function says: it returns [x] and reads [k] octets
    (OctetCostModel.v; one for each dereference of a native iterator, so an octet read twice
    counts twice).  [closest_lead mem p q] (Utf8Spec.v): [q] is the closest position at or before [p] whose octet is not
    a continuation.  [announced_len]: the number of octets the octet announces. *)
From Verif Require Import Prelude DataTables PropsModel Utf8Model TextModel StdSortModel Utf8Spec UnicodeSpec RangeSpec GraphemeSpec TextSpec NormSpec FilterSpec
  Utf8Proofs ByteProofs BoundsProofs MemProofs LawfulProofs IterProofs GraphemeProofs Uax29Proofs GraphemeText NormText NormProofs CostModel CostProofs OctetCostModel OctetCostProofs Properties_Normalize Properties_Cost.
Require Import ZifyBool ZifyNat.

(** The counted operations are those of the model, at any position of any memory, whatever happens. *)
Theorem C116_counts_are_of_the_model : forall mem p q,
  erase (current_codepoint_o mem p) = it_deref mem p /\ erase (forward_one_codepoint_o mem p) = it_preinc mem p /\
  erase (rewind_one_codepoint_o mem p) = it_predec mem p /\ erase (it_eq_o mem p q) = it_eq mem p q /\
  erase (bounds_check_o mem p q) = bounds_check mem p q.
Proof. intros. repeat split; [apply erase_deref|apply erase_forward|apply erase_backward|apply erase_eq|apply erase_check]. Qed.
Print Assumptions C116_counts_are_of_the_model.

(** The work of one operation, in any memory: it is told by the number of continuation octets the operation
    passes on its way back. *)
Theorem C116_operations : forall mem p q, Forall is_byte mem -> 0 <= p < zlen mem -> closest_lead mem p q ->
  let back := Z.to_nat (p - q) in
  (forall x, it_preinc mem p = Ok x -> forward_one_codepoint_o mem p = Ok (x, back + 3)%nat) /\
  (forall y x, it_eq mem p y = Ok x -> it_eq_o mem p y = Ok (x, back + 3)%nat) /\
  (forall q', closest_lead mem (q - 1) q' -> rewind_one_codepoint_o mem p = Ok (q', Z.to_nat (p - q') + 2)%nat) /\
  (forall x, it_deref mem p = Ok x ->
     (octet mem p < 128 -> current_codepoint_o mem p = Ok (x, 1%nat)) /\
     (192 <= octet mem p -> current_codepoint_o mem p = Ok (x, 1 + Z.to_nat (announced_len (octet mem p)))%nat) /\
     (128 <= octet mem p < 192 -> current_codepoint_o mem p = Ok (x, back + 2 + Z.to_nat (announced_len (octet mem q)))%nat)).
Proof.
  intros mem p q F P C back. split; [|split; [|split]].
  - intros x H. exact (forward_count mem p q x F P C H).
  - intros y x H. exact (eq_count mem p q y x F P C H).
  - intros q' C'. exact (backward_count mem p q q' F P C C').
  - intros x H. pose proof (deref_count mem p q x F P C H) as D. split; [|split]; intros O.
    + rewrite D. replace (octet mem p <? 128) with true by lia. reflexivity.
    + rewrite D. replace (octet mem p <? 128) with false by lia. destruct C as (C1 & C2 & C3).
      assert (p = q) as <-.
      { destruct (Z.eq_dec p q) as [E|E]; [exact E|]. specialize (C3 p ltac:(lia)). unfold continuation_octet in C3. lia. }
      rewrite Z.ltb_irrefl, Z.sub_diag. f_equal.
    + rewrite D. replace (octet mem p <? 128) with false by lia.
      destruct (Z.ltb_spec q p) as [L|L]; [f_equal; f_equal; unfold back; lia|].
      exfalso. destruct C as (C1 & C2 & _). assert (p = q) as <- by lia. apply C2. unfold continuation_octet. lia.
Qed.
Print Assumptions C116_operations.
(** So there is no bound for malformed octets: at the end of a run of continuation octets the iterator
    walks back over all of it. *)
Theorem C116_malformed_octets_unbounded : forall n, (0 < n)%nat ->
  exists x, current_codepoint_o (string_buffer (0x61 :: repeat 0x80 n)) (Z.of_nat n) = Ok (x, n + 3)%nat.
Proof.
  intros n Hn. set (mem := string_buffer (0x61 :: repeat 0x80 n)).
  assert (F : Forall is_byte mem).
  { unfold mem, string_buffer. apply Forall_app. split; [|constructor; [unfold is_byte; lia|constructor]]. constructor; [unfold is_byte; lia|].
    apply Forall_forall. intros y I. apply repeat_spec in I. subst y. unfold is_byte. lia. }
  assert (L : zlen mem = Z.of_nat n + 2).
  { unfold mem, string_buffer, zlen. rewrite app_length. cbn [length]. rewrite repeat_length. lia. }
  assert (O : forall k, 0 < k <= Z.of_nat n -> octet mem k = 0x80).
  { intros k Hk. unfold octet, mem, string_buffer. rewrite app_nth1 by (cbn [length]; rewrite repeat_length; lia).
    destruct (Z.to_nat k) as [|i] eqn:E; [lia|]. cbn [nth]. apply (repeat_spec n 0x80). apply nth_In. rewrite repeat_length. lia. }
  assert (O0 : octet mem 0 = 0x61) by reflexivity.
  assert (C : closest_lead mem (Z.of_nat n) 0).
  { split; [lia|]. rewrite O0. split; [unfold continuation_octet; lia|]. intros k Hk. rewrite O by lia. unfold continuation_octet. lia. }
  destruct (deref_lead mem F (Z.of_nat n) 0 ltac:(lia) C) as (D & _). specialize (D ltac:(lia)).
  exists (if 0 <? Z.of_nat n then octet mem 0 mod 64 else octet mem 0, 0).
  rewrite (deref_count mem (Z.of_nat n) 0 _ F ltac:(lia) C D). rewrite (O (Z.of_nat n)) by lia. rewrite O0.
  replace (0x80 <? 128) with false by reflexivity. replace (0 <? Z.of_nat n) with true by lia. change (announced_len 0x61) with 1.
  f_equal. f_equal. lia.
Qed.
Print Assumptions C116_malformed_octets_unbounded.

(** utf8_bounds::check reads at most 7 octets, whatever the text and its length. *)
Theorem C116_check_reads_at_most_seven : forall mem b e x, bounds_check mem b e = Ok x ->
  exists k, bounds_check_o mem b e = Ok (x, k) /\ (1 <= k <= 7)%nat.
Proof.
  intros mem b e x H. rewrite <- erase_check in H. apply counted_ok in H. destruct H as (k & H). exists k. split; [exact H|].
  exact (check_count _ _ _ _ _ H).
Qed.
Print Assumptions C116_check_reads_at_most_seven.

(** Loops over a valid text (in a string, or in a view followed by something that is not a continuation octet): exact
    counts by the number of codepoints, of octets and of ASCII codepoints. *)
Definition ascii_codepoints (cs : list Z) : nat := length (List.filter (fun c => c <? 128) cs).
Theorem C116_forward_loop : forall before cs after fuel, Forall codepoint31 cs -> Forall is_byte before -> Forall is_byte after ->
  after <> [] -> ~ continuation_octet (octet after 0) -> (length cs < fuel)%nat ->
  let b := zlen before in let e := zlen before + zlen (utf8_text cs) in
  exists k, iterate_codepoints_for_o fuel (utf8_cops (before ++ utf8_text cs ++ after)) b e = Ok (cs, k) /\
    (k + ascii_codepoints cs = 7 * length cs + length (utf8_text cs) + 3)%nat.
Proof.
  intros before cs after fuel H FB FA NE N Hf b e.
  apply (forward_total cs before after _ fuel H eq_refl); try assumption.
  - apply bytes_around; assumption.
  - rewrite !zlen_app. destruct after; [contradiction|]. rewrite zlen_cons. pose proof (zlen_nonneg after). lia.
  - replace (octet (before ++ utf8_text cs ++ after) (zlen before + zlen (utf8_text cs))) with (octet after 0); [exact N|].
    unfold octet. rewrite app_assoc, app_nth2; rewrite app_length; unfold zlen; [|lia]. f_equal. lia.
Qed.
Print Assumptions C116_forward_loop.
Theorem C116_backward_loop : forall cs fuel, Forall codepoint31 cs -> (length cs < fuel)%nat ->
  exists k, iterate_backwards_o fuel (utf8_cops (string_buffer (utf8_text cs))) (zlen (utf8_text cs)) 0 = Ok (rev cs, k) /\
    (k + ascii_codepoints cs = 6 * length cs + 2 * length (utf8_text cs) + 3)%nat.
Proof.
  intros cs fuel H Hf. apply (backward_total cs [] 0 [] (string_buffer (utf8_text cs)) fuel H); try assumption.
  - unfold codepoint31. lia.
  - reflexivity.
  - apply buffer_bytes, upto_FD_byte, utf8_text_bytes. assumption.
Qed.
Print Assumptions C116_backward_loop.

(** The forms of C114 with the count of octets. *)
Inductive form_of_o : ((list Z -> list Z) -> (list Z -> list Z -> res (list Z)) -> nat -> cp_ops -> Z * Z -> list Z -> res (Z * list Z)) ->
  ((list Z -> list Z) -> (list Z -> list Z -> res (list Z)) -> nat -> cops -> Z * Z -> list Z -> counted (Z * list Z)) -> Prop :=
| form_o_d : form_of_o normalization_form_d normalization_form_d_o
| form_o_kd : form_of_o normalization_form_kd normalization_form_kd_o
| form_o_c : form_of_o normalization_form_c normalization_form_c_o
| form_o_kc : form_of_o normalization_form_kc normalization_form_kc_o.
Lemma both_forms F Fo : form_of_o F Fo -> exists listed Fc, form_of_c F listed Fc /\
  forall w co ops, (forall p, within w (co_deref co p) (one (op_deref ops p))) -> (forall p, within w (co_step co p) (one (op_step ops p))) ->
    (forall p, within w (co_dec co p) (one (op_dec ops p))) -> (forall p q, within w (co_eq co p q) (one (op_eq ops p q))) ->
    forall sort append fuel g o, within w (Fo sort append fuel co g o) (Fc sort append fuel ops g o).
Proof.
  intros []; [exists listed_canonical, normalization_form_d_c|exists listed_compat, normalization_form_kd_c|
    exists listed_canonical, normalization_form_c_c|exists listed_compat, normalization_form_kc_c]; (split; [first [apply form_c_d|apply form_c_kd|apply form_c_c|apply form_c_kc]|]); intros;
    [apply (within_decomposed w co ops)|apply (within_decomposed w co ops)|apply (within_composed w co ops)|apply (within_composed w co ops)]; assumption.
Qed.
(** Normalizing a UTF-8 string reads a number of octets linear in the number of its codepoints, [m] being the
    number of octets of its longest codepoint (at most 4 for Unicode). *)
Theorem C116_normalization_is_linear : forall F Fo sort append cs m fuel out r,
  form_of_o F Fo -> Forall codepoint31 cs -> (1 <= m)%nat -> (forall c, In c cs -> (length (utf8_encode c) <= m)%nat) -> (length cs < fuel)%nat ->
  let mem := string_buffer (utf8_text cs) in
  normalize fuel (utf8_ops mem) (F sort append fuel (utf8_ops mem)) 0 (zlen (utf8_text cs)) out = Ok r ->
  exists k, normalize_o fuel (utf8_cops mem) (Fo sort append fuel (utf8_cops mem)) 0 (zlen (utf8_text cs)) out = Ok (r, k) /\
    (k <= (2 * m + 1) * (15 * length cs + 8))%nat.
Proof.
  intros F Fo sort append cs m fuel out r FO H Hm HL Hf mem R. destruct (both_forms F Fo FO) as (listed & Fc & FC & W).
  assert (D : delimited_text (utf8_ops mem) 0 (zlen (utf8_text cs)) cs) by (eapply delimited_string; constructor; assumption).
  destruct (C114_normalization_is_linear F listed Fc sort append _ _ _ _ fuel out r FC D Hf R) as (n & E & Hn).
  pose proof (within_normalize (2 * m + 1) (utf8_cops mem) (utf8_ops mem) (us_deref cs m H Hm HL) (us_step cs m H Hm HL) (us_dec cs m H Hm HL) (us_eq cs m H Hm HL)
    fuel (Fo sort append fuel (utf8_cops mem)) (Fc sort append fuel (utf8_ops mem)) 0 (zlen (utf8_text cs)) out
    (W _ _ _ (us_deref cs m H Hm HL) (us_step cs m H Hm HL) (us_dec cs m H Hm HL) (us_eq cs m H Hm HL) sort append fuel)) as Q.
  rewrite E in Q. destruct (normalize_o _ _ _ _ _ _) as [[r' k]|u|]; cbn in Q; try contradiction. destruct Q as [-> K].
  exists k. split; [reflexivity|]. eapply Nat.le_trans; [exact K|]. apply Nat.mul_le_mono_l. exact Hn.
Qed.
Print Assumptions C116_normalization_is_linear.
(** The same for a loop over the graphemes. *)
Theorem C116_grapheme_loop_is_linear : forall operation cs m fuel out r,
  Forall codepoint31 cs -> (1 <= m)%nat -> (forall c, In c cs -> (length (utf8_encode c) <= m)%nat) -> (length cs < fuel)%nat ->
  let mem := string_buffer (utf8_text cs) in
  normalize fuel (utf8_ops mem) operation 0 (zlen (utf8_text cs)) out = Ok r ->
  exists k, normalize_o fuel (utf8_cops mem) (fun g o => free (operation g o)) 0 (zlen (utf8_text cs)) out = Ok (r, k) /\
    (k <= (2 * m + 1) * (11 * length cs + 8))%nat.
Proof.
  intros operation cs m fuel out r H Hm HL Hf mem R.
  assert (D : delimited_text (utf8_ops mem) 0 (zlen (utf8_text cs)) cs) by (eapply delimited_string; constructor; assumption).
  pose proof (C114_grapheme_loop_count operation _ _ _ cs (seg cs) fuel out r D (seg_segments cs) Hf R) as E.
  pose proof (within_normalize (2 * m + 1) (utf8_cops mem) (utf8_ops mem) (us_deref cs m H Hm HL) (us_step cs m H Hm HL) (us_dec cs m H Hm HL) (us_eq cs m H Hm HL)
    fuel (fun g o => free (operation g o)) (fun g o => free (operation g o)) 0 (zlen (utf8_text cs)) out (fun g o => within_free _ _)) as Q.
  rewrite E in Q. destruct (normalize_o _ _ _ _ _ _) as [[r' k]|u|]; cbn in Q; try contradiction. destruct Q as [-> K].
  exists k. split; [reflexivity|]. eapply Nat.le_trans; [exact K|]. apply Nat.mul_le_mono_l. pose proof (seg_length cs). destruct cs; lia.
Qed.
Print Assumptions C116_grapheme_loop_is_linear.

(** "aé€": the forward loop reads 7*3 + 6 + 3 - 1 octets, the backward loop 6*3 + 12 + 3 - 1; form D of "é". *)
Example C116_example :
  iterate_codepoints_for_o 4 (utf8_cops (string_buffer [0x61; 0xC3; 0xA9; 0xE2; 0x82; 0xAC])) 0 6 = Ok ([0x61; 0xE9; 0x20AC], 29%nat) /\
  iterate_backwards_o 4 (utf8_cops (string_buffer [0x61; 0xC3; 0xA9; 0xE2; 0x82; 0xAC])) 6 0 = Ok ([0x20AC; 0xE9; 0x61], 32%nat) /\
  normalize_o 4 (utf8_cops (string_buffer [0xC3; 0xA9])) (normalization_form_d_o (fun l => l) utf32_append_from_utf32ne 4 (utf8_cops (string_buffer [0xC3; 0xA9]))) 0 2 [] =
    Ok ((2, [0x65; 0x301]), 68%nat) /\
  bounds_check_o (string_buffer [0x61; 0xC3; 0xA9; 0xE2; 0x82; 0xAC; 0x61]) 0 7 = Ok (true, 7%nat).
Proof. repeat split; vm_compute; reflexivity. Qed.
