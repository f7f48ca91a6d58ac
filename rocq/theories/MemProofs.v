(** * Proofs: iterators at any position of any memory *)
From Verif Require Import Prelude Utf8Model TextModel Utf8Spec RangeSpec MemSpec Utf8Proofs LawfulProofs ByteProofs BoundsProofs ExactProofs GraphemeBytes RangeProofs.
Require Import ZifyBool ZifyNat.

(** Either there is a lead octet at or before [p], or none. *)
Lemma lead_or_none mem n : forall p, p = Z.of_nat n ->
  (exists r, closest_lead mem p r) \/ leading_continuation mem p.
Proof.
  induction n as [|n IH]; intros p ->.
  - destruct (is_cont (octet mem 0)) eqn:C.
    + right. intros i I. replace i with 0 by lia. apply is_cont_iff. assumption.
    + left. exists 0. split; [lia|]. split; [intros X; apply is_cont_iff in X; congruence|]. intros k K. lia.
  - destruct (is_cont (octet mem (Z.of_nat (S n)))) eqn:C.
    + apply is_cont_iff in C. destruct (IH (Z.of_nat n) eq_refl) as [(r & R1 & R2 & R3)|N].
      * left. exists r. split; [lia|]. split; [assumption|]. intros k K.
        destruct (Z.eq_dec k (Z.of_nat (S n))) as [->|]; [assumption|apply R3; lia].
      * right. intros i I. destruct (Z.eq_dec i (Z.of_nat (S n))) as [->|]; [assumption|apply N; lia].
    + left. exists (Z.of_nat (S n)). split; [lia|]. split; [intros X; apply is_cont_iff in X; congruence|]. intros k K. lia.
Qed.
Lemma lead_or_not mem p : 0 <= p -> (exists r, closest_lead mem p r) \/ leading_continuation mem p.
Proof. intros H. apply (lead_or_none mem (Z.to_nat p)). lia. Qed.

Section Mem.
Context (mem : list Z) (F : Forall is_byte mem).
Let B p : is_byte (octet mem p) := octet_byte mem p F.

Lemma rewind_loop_lead r : forall n p fuel ret, closest_lead mem p r -> p - r = Z.of_nat n -> p < zlen mem -> (n < fuel)%nat ->
  rewind_loop fuel mem p ret = Ok (ret || (r <? p), r).
Proof.
  induction n as [|n IH]; intros p fuel ret (R1 & R2 & R3) D P L; (destruct fuel as [|f]; [lia|]); cbn [rewind_loop];
    rewrite rd_octet by lia; cbn [bind]; rewrite is_continuation_spec by apply B.
  - assert (r = p) by lia. subst r. destruct (is_cont (octet mem p)) eqn:C; [apply is_cont_iff in C; contradiction|].
    rewrite Z.ltb_irrefl, orb_false_r. reflexivity.
  - rewrite (proj2 (is_cont_iff _)) by (apply R3; lia). rewrite padd_ok by lia. cbn [bind].
    rewrite IH by (first [lia | split; [lia|split; [assumption|intros k K; apply R3; lia]]]). f_equal. f_equal. lia.
Qed.
Lemma rewind_lead p r : 0 <= p < zlen mem -> closest_lead mem p r -> rewind_to_start_of_codepoint mem p = Ok (r <? p, r).
Proof.
  intros P R. pose proof R as (R1 & _). unfold rewind_to_start_of_codepoint.
  rewrite (rewind_loop_lead r (Z.to_nat (p - r)) p) by (assumption || lia). reflexivity.
Qed.
Lemma rewind_loop_none : forall n p fuel ret, p = Z.of_nat n -> leading_continuation mem p -> p < zlen mem -> (n < fuel)%nat ->
  rewind_loop fuel mem p ret = UB BadPointer.
Proof.
  induction n as [|n IH]; intros p fuel ret -> N P L; (destruct fuel as [|f]; [lia|]); cbn [rewind_loop];
    rewrite rd_octet by lia; cbn [bind]; rewrite is_continuation_spec by apply B;
    rewrite (proj2 (is_cont_iff _)) by (apply N; lia).
  - reflexivity.
  - rewrite padd_ok by lia. cbn [bind]. apply IH; try lia. intros i I. apply N. lia.
Qed.
Lemma rewind_none p : 0 <= p < zlen mem -> leading_continuation mem p -> rewind_to_start_of_codepoint mem p = UB BadPointer.
Proof. intros P N. unfold rewind_to_start_of_codepoint. apply (rewind_loop_none (Z.to_nat p)); (assumption || lia). Qed.

(** ** No lead octet at or before the position *)
Lemma none_ops p : 0 <= p < zlen mem -> leading_continuation mem p ->
  it_deref mem p = UB BadPointer /\ it_preinc mem p = UB BadPointer /\ it_predec mem p = UB BadPointer /\
  (forall q, it_eq mem p q = UB BadPointer) /\ utf8_native_const_iterator mem p = UB BadPointer.
Proof.
  intros P N. pose proof (rewind_none p P N) as R.
  unfold it_deref, current_codepoint, it_preinc, forward_one_codepoint, it_predec, rewind_one_codepoint, it_eq, utf8_native_const_iterator.
  rewrite R, rd_octet by lia. cbn [bind]. split; [|repeat split].
  rewrite is_7bit_spec by apply B. specialize (N p ltac:(lia)). unfold continuation_octet in N.
  destruct (Z.ltb_spec (octet mem p) 128); [lia|reflexivity].
Qed.

(** ** With a lead octet *)
Lemma inc_lead p r : 0 <= p < zlen mem -> closest_lead mem p r ->
  it_preinc mem p = if extent mem r <=? zlen mem then Ok (extent mem r) else UB BadPointer.
Proof.
  intros P R. unfold it_preinc, forward_one_codepoint. rewrite (rewind_lead p r P R). cbn [bind]. pose proof R as (R1 & _).
  rewrite rd_octet by lia. cbn [bind]. rewrite codepoint_size_spec by apply B. cbn [bind].
  pose proof (announced_len_range (octet mem r)). unfold padd, extent.
  destruct (Z.leb_spec 0 (r + announced_len (octet mem r))); [reflexivity|lia].
Qed.
Lemma eq_lead p q r : 0 <= p < zlen mem -> q <= zlen mem -> closest_lead mem p r ->
  it_eq mem p q = if q <? r then (if extent mem r <=? zlen mem then Ok false else UB BadPointer) else Ok (q <? extent mem r).
Proof.
  intros P Q R. unfold it_eq. rewrite (rewind_lead p r P R). cbn [bind]. pose proof R as (R1 & _).
  rewrite rd_octet by lia. cbn [bind]. rewrite codepoint_size_spec by apply B. cbn [bind].
  pose proof (announced_len_range (octet mem r)). unfold extent. destruct (Z.ltb_spec q r).
  - rewrite eq_loop_behind by lia. replace (Z.of_nat (Z.to_nat (announced_len (octet mem r)))) with (announced_len (octet mem r)) by lia. reflexivity.
  - rewrite eq_loop_bytes by lia. f_equal. lia.
Qed.
Lemma native_lead p r : 0 <= p < zlen mem -> closest_lead mem p r -> utf8_native_const_iterator mem p = Ok r.
Proof. intros P R. unfold utf8_native_const_iterator. rewrite (rewind_lead p r P R). reflexivity. Qed.
Lemma dec_lead p r : 0 <= p < zlen mem -> closest_lead mem p r ->
  (forall q, closest_lead mem (r - 1) q -> it_predec mem p = Ok q) /\
  (leading_continuation mem (r - 1) -> it_predec mem p = UB BadPointer).
Proof.
  intros P R. unfold it_predec, rewind_one_codepoint. rewrite (rewind_lead p r P R). cbn [bind]. pose proof R as (R1 & _). split.
  - intros q Q. pose proof Q as (Q1 & _). rewrite padd_ok by lia. cbn [bind]. rewrite (rewind_lead (r + -1) q) by (assumption || lia). reflexivity.
  - intros N. destruct (Z.eq_dec r 0) as [->|]; [reflexivity|]. rewrite padd_ok by lia. cbn [bind].
    rewrite rewind_none by (assumption || lia). reflexivity.
Qed.

(** Dereferencing. *)
Definition tail_value (n : nat) (p v : Z) : Z := fold_left (fun v b => v * 64 + b mod 64) (firstn n (skipn (Z.to_nat (p + 1)) mem)) v.
Lemma tail_value_S n p v : 0 <= p -> p + 1 < zlen mem -> tail_value (S n) p v = tail_value n (p + 1) (v * 64 + octet mem (p + 1) mod 64).
Proof. intros P L. unfold tail_value. rewrite (skipn_octet mem (p + 1)) by lia. reflexivity. Qed.
Lemma decode_off n : forall p v k, 0 <= p < zlen mem -> zlen mem <= p + Z.of_nat n -> 0 <= v < 2 ^ k -> 0 <= k -> k + 6 * Z.of_nat n <= 36 ->
  decode_loop n mem p v = UB OobRead.
Proof.
  induction n as [|n IH]; intros p v k P L V K KN; cbn [decode_loop]; [lia|]. rewrite padd_ok by lia. cbn [bind].
  destruct (Z.ltb_spec (p + 1) (zlen mem)) as [G|G].
  - rewrite rd_octet by lia. cbn [bind].
    assert (P26 : 2 ^ k <= 2 ^ 24) by (apply Z.pow_le_mono_r; lia). change (2 ^ 24) with 16777216 in P26.
    unfold shl6. destruct (Z.leb_spec 0 v); [|lia]. destruct (Z.ltb_spec (v * 64) 4294967296); [|lia]. cbn [andb bind].
    assert (E : to_i32 (v * 64) = v * 64).
    { unfold to_i32. rewrite Z.mod_small by lia. destruct (Z.ltb_spec (v * 64) 2147483648); lia. }
    rewrite E, low6_spec by apply B.
    assert (L6 : 0 <= low6 (octet mem (p + 1)) < 64) by (unfold low6; apply Z.mod_pos_bound; lia).
    rewrite lor_low6 by assumption. apply (IH (p + 1) _ (k + 6)); try lia.
    rewrite Z.pow_add_r by lia. change (2 ^ 6) with 64. lia.
  - unfold rd. destruct (Z.ltb_spec (p + 1) 0); [lia|].
    rewrite (proj2 (nth_error_None mem (Z.to_nat (p + 1)))) by zl. reflexivity.
Qed.
Lemma fold6_range l : forall v k, 0 <= v < 2 ^ k -> 0 <= k ->
  0 <= fold_left (fun v b => v * 64 + b mod 64) l v < 2 ^ (k + 6 * Z.of_nat (length l)).
Proof.
  induction l as [|b l IH]; intros v k V K; cbn [fold_left length].
  - replace (k + 6 * Z.of_nat 0) with k by lia. assumption.
  - replace (k + 6 * Z.of_nat (S (length l))) with ((k + 6) + 6 * Z.of_nat (length l)) by lia. apply IH; [|lia].
    pose proof (Z.mod_pos_bound b 64 ltac:(lia)). rewrite Z.pow_add_r by lia. change (2 ^ 6) with 64. lia.
Qed.
(** The last step of a seven octet sequence. *)
Lemma decode_last p v : 0 <= p -> p + 1 < zlen mem -> 0 <= v < 2 ^ 30 ->
  decode_loop 1 mem p v =
    let w := v * 64 + octet mem (p + 1) mod 64 in
    if w <? 2 ^ 32 then Ok (if w <? 2 ^ 31 then w else w - 2 ^ 32) else UB BadShift.
Proof.
  intros P L V. cbn [decode_loop]. rewrite padd_ok by lia. cbn [bind]. rewrite rd_octet by lia. cbn [bind].
  pose proof (Z.mod_pos_bound (octet mem (p + 1)) 64 ltac:(lia)) as M.
  rewrite low6_spec by apply B. unfold low6. set (m := octet mem (p + 1) mod 64) in *. clearbody m.
  change (2 ^ 30) with 1073741824 in V. change (2 ^ 32) with 4294967296. change (2 ^ 31) with 2147483648.
  unfold shl6. destruct (Z.leb_spec 0 v); [|lia]. cbv zeta.
  destruct (Z.ltb_spec (v * 64) 4294967296) as [S|S]; cbn [andb bind].
  - destruct (Z.ltb_spec (v * 64 + m) 4294967296); [|lia]. f_equal.
    assert (LL : forall a, Z.lor (a * 64) m = a * 64 + m).
    { intros a. change 64 with (2 ^ 6). rewrite <- Z.shiftl_mul_pow2 by lia.
      assert (X : Z.land (Z.shiftl a 6) m = 0).
      { apply Z.bits_inj'. intros i I. rewrite Z.land_spec, Z.bits_0. destruct (Z.ltb_spec i 6).
        - rewrite Z.shiftl_spec_low by lia. reflexivity.
        - rewrite (Z.bits_above_log2 m i); [apply andb_false_r|lia|].
          destruct (Z.eq_dec m 0) as [->|]; [cbn; lia|]. apply Z.log2_lt_pow2; [lia|]. apply Z.lt_le_trans with (2 ^ 6); [cbn; lia|apply Z.pow_le_mono_r; lia]. }
      rewrite <- Z.lxor_lor by assumption. symmetry. apply Z.add_nocarry_lxor. assumption. }
    unfold to_i32. rewrite Z.mod_small by lia.
    destruct (Z.ltb_spec (v * 64) 2147483648); destruct (Z.ltb_spec (v * 64 + m) 2147483648); try lia.
    + apply LL.
    + replace (v * 64 - 4294967296) with ((v - 67108864) * 64) by lia. rewrite LL. lia.
  - destruct (Z.ltb_spec (v * 64 + m) 4294967296); [lia|]. reflexivity.
Qed.
Lemma decode_split n : forall m p v k, 0 <= p -> p + Z.of_nat n < zlen mem -> 0 <= v < 2 ^ k -> 0 <= k -> k + 6 * Z.of_nat n <= 31 ->
  decode_loop (n + m) mem p v = decode_loop m mem (p + Z.of_nat n) (tail_value n p v).
Proof.
  induction n as [|n IH]; intros m p v k P L V K KN.
  - cbn [Nat.add]. replace (p + Z.of_nat 0) with p by lia. reflexivity.
  - change (S n + m)%nat with (S (n + m)). cbn [decode_loop]. rewrite padd_ok by lia. cbn [bind]. rewrite rd_octet by lia. cbn [bind].
    assert (P25 : 2 ^ k <= 2 ^ 25) by (apply Z.pow_le_mono_r; lia). change (2 ^ 25) with 33554432 in P25.
    unfold shl6. destruct (Z.leb_spec 0 v); [|lia]. destruct (Z.ltb_spec (v * 64) 4294967296); [|lia]. cbn [andb bind].
    assert (E : to_i32 (v * 64) = v * 64).
    { unfold to_i32. rewrite Z.mod_small by lia. destruct (Z.ltb_spec (v * 64) 2147483648); lia. }
    rewrite E, low6_spec by apply B.
    assert (L6 : 0 <= low6 (octet mem (p + 1)) < 64) by (unfold low6; apply Z.mod_pos_bound; lia).
    rewrite lor_low6 by assumption. rewrite (IH m (p + 1) _ (k + 6)); try lia.
    + rewrite tail_value_S by lia. unfold low6. f_equal; lia.
    + rewrite Z.pow_add_r by lia. change (2 ^ 6) with 64. lia.
Qed.
Lemma tail_value_snoc n : forall p v, 0 <= p -> p + Z.of_nat n + 1 < zlen mem ->
  tail_value (S n) p v = tail_value n p v * 64 + octet mem (p + Z.of_nat n + 1) mod 64.
Proof.
  induction n as [|n IH]; intros p v P L.
  - rewrite tail_value_S by lia. unfold tail_value. cbn [firstn fold_left]. do 3 f_equal. lia.
  - rewrite tail_value_S by lia. rewrite IH by lia. rewrite (tail_value_S n) by lia. do 3 f_equal. lia.
Qed.

Lemma deref_lead p r : 0 <= p < zlen mem -> closest_lead mem p r ->
  (octet mem r < 128 -> it_deref mem p = Ok (if r <? p then octet mem r mod 64 else octet mem r, r)) /\
  (octet mem r = 255 -> it_deref mem p = UB BadShift) /\
  (octet mem r <> 255 -> zlen mem < extent mem r -> it_deref mem p = UB OobRead) /\
  (128 <= octet mem r -> octet mem r <> 255 -> extent mem r <= zlen mem ->
     (value_at mem r < 2 ^ 31 -> it_deref mem p = Ok (value_at mem r, r)) /\
     (2 ^ 31 <= value_at mem r < 2 ^ 32 -> it_deref mem p = Ok (value_at mem r - 2 ^ 32, r)) /\
     (2 ^ 32 <= value_at mem r -> it_deref mem p = UB BadShift)).
Proof.
  intros P R. pose proof (B p) as Bp. pose proof (B r) as Br. pose proof (rewind_lead p r P R) as RW.
  destruct R as (R1 & R2 & R3). pose proof (announced_len_range (octet mem r)) as AR.
  assert (EQ7 : octet mem p < 128 -> r = p).
  { intros S. destruct (Z.eq_dec r p); [assumption|]. specialize (R3 p ltac:(lia)). unfold continuation_octet in R3. lia. }
  assert (DE : 128 <= octet mem p -> it_deref mem p =
     (if 7 - announced_len (octet mem r) <? 0 then UB BadShift
      else let* v := decode_loop (Z.to_nat (announced_len (octet mem r) - 1)) mem r
             (Z.land (char_int (octet mem r)) (to_u8 (Z.lnot (Z.shiftl 255 (7 - announced_len (octet mem r)))))) in Ok (v, r))).
  { intros S. unfold it_deref, current_codepoint. rewrite rd_octet by lia. cbn [bind]. rewrite is_7bit_spec by assumption.
    destruct (Z.ltb_spec (octet mem p) 128); [lia|]. rewrite RW. cbn [bind].
    replace (if r <? p then rd mem r else Ok (octet mem p)) with (Ok (octet mem r)).
    2: { rewrite rd_octet by lia. destruct (Z.ltb_spec r p); [reflexivity|]. replace p with r by lia. reflexivity. }
    cbn [bind]. rewrite codepoint_size_spec by assumption. cbn [bind]. reflexivity. }
  assert (GE : 128 <= octet mem r -> 128 <= octet mem p).
  { intros S. destruct (Z.ltb_spec (octet mem p) 128); [|lia]. rewrite EQ7 in S by lia. lia. }
  assert (V255 : announced_len 255 = 8) by reflexivity.
  split; [|split; [|split]].
  - intros A. assert (A1 : announced_len (octet mem r) = 1) by (unfold announced_len; destruct (Z.ltb_spec (octet mem r) 192); lia).
    destruct (Z.ltb_spec (octet mem p) 128) as [S|S].
    + specialize (EQ7 S). subst r. unfold it_deref, current_codepoint. rewrite rd_octet by lia. cbn [bind]. rewrite is_7bit_spec by assumption.
      destruct (Z.ltb_spec (octet mem p) 128); [|lia]. rewrite Z.ltb_irrefl. unfold char_int. destruct (Z.ltb_spec (octet mem p) 128); [reflexivity|lia].
    + rewrite DE by assumption. rewrite A1. cbn [Z.ltb Z.sub Z.to_nat decode_loop bind]. cbn.
      assert (SW := byte_sweep (fun b => if b <? 128 then Z.land (char_int b) (to_u8 (Z.lnot (Z.shiftl 255 (7 - 1)))) =? b mod 64 else true)
         ltac:(vm_compute; reflexivity) (octet mem r) Br). cbv beta in SW. destruct (Z.ltb_spec (octet mem r) 128); [|lia].
      destruct (Z.ltb_spec r p); [|exfalso; assert (p = r) by lia; subst p; clear SW; lia]. apply Z.eqb_eq in SW. rewrite <- SW. reflexivity.
  - intros A. rewrite DE by (apply GE; lia). rewrite A. reflexivity.
  - intros NF X. unfold extent in X.
    assert (G : 192 <= octet mem r).
    { destruct (Z.ltb_spec (octet mem r) 192) as [G|G]; [|lia]. unfold announced_len in X. destruct (Z.ltb_spec (octet mem r) 192); lia. }
    rewrite DE by (apply GE; lia). unfold is_byte in Br.
    destruct (Z.eq_dec (octet mem r) 254) as [FE|FE].
    + rewrite FE in *. change (announced_len 254) with 7 in *. change (7 - 7 <? 0) with false. cbn iota.
      change (Z.land (char_int 254) (to_u8 (Z.lnot (Z.shiftl 255 (7 - 7))))) with 0. change (Z.to_nat (7 - 1)) with 6%nat.
      rewrite (decode_off 6 r 0 0) by lia. reflexivity.
    + assert (U : octet_upto_FD (octet mem r)) by (unfold octet_upto_FD; lia).
      pose proof (mask_range (octet mem r) ltac:(exact Br) U) as (MA & MR). destruct (Z.ltb_spec (7 - announced_len (octet mem r)) 0); [lia|].
      rewrite (decode_off _ r _ (7 - announced_len (octet mem r))); [reflexivity|lia|lia|exact MR|lia|lia].
  - intros G NF X. unfold extent in X. unfold continuation_octet in R2. unfold is_byte in Br.
    assert (D := DE (GE G)). 
    assert (VA : value_at mem r = tail_value (Z.to_nat (announced_len (octet mem r) - 1)) r (octet mem r mod 2 ^ (7 - announced_len (octet mem r)))).
    { unfold value_at, octets_at, tail_value. rewrite skipn_octet by lia.
      replace (Z.to_nat (announced_len (octet mem r))) with (S (Z.to_nat (announced_len (octet mem r) - 1))) by lia.
      cbn [firstn sequence_value]. destruct (Z.ltb_spec (octet mem r) 128); [lia|reflexivity]. }
    destruct (Z.eq_dec (octet mem r) 254) as [FE|FE].
    + rewrite FE in *. change (announced_len 254) with 7 in *. change (7 - 7 <? 0) with false in D. cbn iota in D.
      change (Z.land (char_int 254) (to_u8 (Z.lnot (Z.shiftl 255 (7 - 7))))) with 0 in D. change (Z.to_nat (7 - 1)) with (5 + 1)%nat in *.
      change (254 mod 2 ^ (7 - 7)) with 0 in VA.
      rewrite (decode_split 5 1 r 0 0) in D by lia.
      assert (V5 : 0 <= tail_value 5 r 0 < 2 ^ 30).
      { unfold tail_value. pose proof (fold6_range (firstn 5 (skipn (Z.to_nat (r + 1)) mem)) 0 0 ltac:(cbn; lia) ltac:(lia)) as Q.
        assert (LL : (length (firstn 5 (skipn (Z.to_nat (r + 1)) mem)) <= 5)%nat) by (rewrite firstn_length; lia).
        assert (2 ^ (0 + 6 * Z.of_nat (length (firstn 5 (skipn (Z.to_nat (r + 1)) mem)))) <= 2 ^ 30) by (apply Z.pow_le_mono_r; lia). lia. }
      rewrite decode_last in D by lia. change (5 + 1)%nat with 6%nat in VA. rewrite (tail_value_snoc 5) in VA by lia.
      rewrite <- VA in D. cbv zeta in D. set (w := value_at mem r) in *. clearbody w. rewrite D.
      split; [|split]; intros W.
      * replace (w <? 2 ^ 32) with true by lia. replace (w <? 2 ^ 31) with true by lia. reflexivity.
      * replace (w <? 2 ^ 32) with true by lia. replace (w <? 2 ^ 31) with false by lia. reflexivity.
      * replace (w <? 2 ^ 32) with false by lia. reflexivity.
    + assert (U : octet_upto_FD (octet mem r)) by (unfold octet_upto_FD; lia).
      pose proof (mask_range (octet mem r) ltac:(exact Br) U) as (MA & MR). destruct (Z.ltb_spec (7 - announced_len (octet mem r)) 0); [lia|].
      rewrite (lead_payload (octet mem r) ltac:(exact Br) U ltac:(lia)) in *.
      rewrite (decode_loop_value _ mem r _ (7 - announced_len (octet mem r)) F) in D; [|lia|lia|exact MR|lia|lia]. cbn [bind] in D.
      change (fold_left (fun v b => v * 64 + b mod 64) (firstn (Z.to_nat (announced_len (octet mem r) - 1)) (skipn (Z.to_nat (r + 1)) mem)) (octet mem r mod 2 ^ (7 - announced_len (octet mem r))))
        with (tail_value (Z.to_nat (announced_len (octet mem r) - 1)) r (octet mem r mod 2 ^ (7 - announced_len (octet mem r)))) in D.
      rewrite <- VA in D.
      assert (RNG : value_at mem r < 2 ^ 31).
      { rewrite VA. unfold tail_value.
        pose proof (fold6_range (firstn (Z.to_nat (announced_len (octet mem r) - 1)) (skipn (Z.to_nat (r + 1)) mem)) _ (7 - announced_len (octet mem r)) MR ltac:(lia)) as Q.
        pose proof (firstn_le_length (Z.to_nat (announced_len (octet mem r) - 1)) (skipn (Z.to_nat (r + 1)) mem)) as LL. clear - Q LL MA AR.
        set (n := length (firstn (Z.to_nat (announced_len (octet mem r) - 1)) (skipn (Z.to_nat (r + 1)) mem))) in *.
        eapply Z.lt_le_trans; [apply Q|]. apply Z.pow_le_mono_r; [lia|].
        pose proof (firstn_length (Z.to_nat (announced_len (octet mem r) - 1)) (skipn (Z.to_nat (r + 1)) mem)). fold n in H. lia. }
      split; [intros _; exact D|]. split; intros W; lia.
Qed.
End Mem.
