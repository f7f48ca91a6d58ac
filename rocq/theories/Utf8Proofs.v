(** * Proofs about the UTF-8 iterator model on one codepoint *)
From Verif Require Import Prelude Utf8Model Utf8Spec.
Require Import ZifyBool ZifyNat.

Lemma zlen_app {A} (a b : list A) : zlen (a ++ b) = zlen a + zlen b.
Proof. unfold zlen. rewrite app_length. lia. Qed.
Lemma zlen_nonneg {A} (a : list A) : 0 <= zlen a.
Proof. unfold zlen. lia. Qed.
Lemma zlen_cons {A} (x : A) (a : list A) : zlen (x :: a) = 1 + zlen a.
Proof. unfold zlen. cbn [length]. lia. Qed.
Lemma zlen_nil {A} : zlen (@nil A) = 0. Proof. reflexivity. Qed.

(** Case analysis on all comparisons of the goal. *)
Ltac zcases := repeat match goal with
  | |- context [?a <? ?b] => destruct (Z.ltb_spec a b)
  | |- context [?a <=? ?b] => destruct (Z.leb_spec a b)
  | |- context [?a =? ?b] => destruct (Z.eqb_spec a b)
  end; cbn [andb orb negb].
(** Arithmetic on lengths. *)
Ltac zl := unfold zlen in *; repeat (progress (rewrite ?app_length in *; cbn [length app] in *)); lia.

(** Finite sweep over the octets. *)
Definition all_bytes : list Z := map Z.of_nat (seq 0 256).
Lemma byte_sweep (P : Z -> bool) :
  forallb P all_bytes = true -> forall b, is_byte b -> P b = true.
Proof.
  intros H b Hb. rewrite forallb_forall in H. apply H.
  unfold all_bytes. apply in_map_iff. exists (Z.to_nat b). unfold is_byte in Hb.
  split; [lia|]. apply in_seq. lia.
Qed.

Definition is_cont (b : Z) : bool := (128 <=? b) && (b <? 192).

Definition res_eqb (a b : res Z) : bool :=
  match a, b with Ok x, Ok y => x =? y | _, _ => false end.
Lemma res_eqb_eq a y : res_eqb a (Ok y) = true -> a = Ok y.
Proof. destruct a; cbn; try discriminate. intros H. apply Z.eqb_eq in H. congruence. Qed.

Lemma codepoint_size_spec b : is_byte b -> codepoint_size b = Ok (announced_len b).
Proof.
  intros H. apply res_eqb_eq.
  exact (byte_sweep (fun b => res_eqb (codepoint_size b) (Ok (announced_len b)))
           ltac:(vm_compute; reflexivity) b H).
Qed.
Lemma is_continuation_spec b : is_byte b -> is_codepoint_continuation b = is_cont b.
Proof.
  intros H. apply eqb_prop.
  exact (byte_sweep (fun b => eqb (is_codepoint_continuation b) (is_cont b))
           ltac:(vm_compute; reflexivity) b H).
Qed.
Lemma is_start_spec b : is_byte b -> is_codepoint_start b = (192 <=? b).
Proof.
  intros H. apply eqb_prop.
  exact (byte_sweep (fun b => eqb (is_codepoint_start b) (192 <=? b))
           ltac:(vm_compute; reflexivity) b H).
Qed.
Lemma is_7bit_spec b : is_byte b -> is_7bit_character b = (b <? 128).
Proof.
  intros H. apply eqb_prop.
  exact (byte_sweep (fun b => eqb (is_7bit_character b) (b <? 128))
           ltac:(vm_compute; reflexivity) b H).
Qed.

(** Payload of a lead octet / of a continuation octet. *)
Definition lead_bits (b : Z) : Z :=
  if b <? 128 then b else b mod 2 ^ (7 - announced_len b).
Definition low6 (b : Z) : Z := b mod 64.
Lemma low6_spec b : is_byte b -> Z.land (char_int b) 63 = low6 b.
Proof.
  intros H. apply Z.eqb_eq.
  exact (byte_sweep (fun b => Z.land (char_int b) 63 =? low6 b)
           ltac:(vm_compute; reflexivity) b H).
Qed.
Lemma mask_spec b : is_byte b -> 192 <= b < 254 ->
  Z.land (char_int b) (to_u8 (Z.lnot (Z.shiftl 255 (7 - announced_len b)))) = lead_bits b.
Proof.
  intros H Hr. apply Z.eqb_eq.
  assert (E := byte_sweep (fun b => if (192 <=? b) && (b <? 254) then
    Z.land (char_int b) (to_u8 (Z.lnot (Z.shiftl 255 (7 - announced_len b)))) =? lead_bits b else true)
           ltac:(vm_compute; reflexivity) b H).
  cbv beta in E. destruct ((192 <=? b) && (b <? 254)) eqn:D; [exact E|lia].
Qed.
Lemma lead_bits_range b : is_byte b -> 192 <= b < 254 ->
  0 <= lead_bits b < 2 ^ (7 - announced_len b).
Proof.
  intros H Hr.
  assert (E := byte_sweep (fun b => if (192 <=? b) && (b <? 254) then
    (0 <=? lead_bits b) && (lead_bits b <? 2 ^ (7 - announced_len b)) else true)
           ltac:(vm_compute; reflexivity) b H).
  cbv beta in E. destruct ((192 <=? b) && (b <? 254)) eqn:D; lia.
Qed.
Lemma announced_len_range b : 1 <= announced_len b <= 8.
Proof. unfold announced_len. repeat destruct (_ <? _); lia. Qed.

Lemma lor_low6 v r : 0 <= r < 64 -> Z.lor (v * 64) r = v * 64 + r.
Proof.
  intros Hr.
  assert (L : Z.land (v * 64) r = 0).
  { change 64 with (2 ^ 6). rewrite <- Z.shiftl_mul_pow2 by lia.
    apply Z.bits_inj'. intros n Hn. rewrite Z.land_spec, Z.bits_0.
    destruct (Z.ltb_spec n 6).
    - rewrite Z.shiftl_spec_low by lia. reflexivity.
    - replace (Z.testbit r n) with false; [apply andb_false_r|].
      symmetry. destruct (Z.eq_dec r 0) as [->|]; [apply Z.bits_0|].
      apply Z.bits_above_log2; [lia|].
      apply Z.log2_lt_pow2; [lia|].
      apply Z.lt_le_trans with (2 ^ 6); [lia|]. apply Z.pow_le_mono_r; lia. }
  rewrite Z.add_nocarry_lxor by exact L. symmetry. apply Z.lxor_lor. exact L.
Qed.

(** ** Buffers *)
Lemma rd_app A b B : rd (A ++ b :: B) (zlen A) = Ok b.
Proof.
  unfold rd, zlen. destruct (Z.ltb_spec (Z.of_nat (length A)) 0); [lia|].
  rewrite Nat2Z.id, nth_error_app2, Nat.sub_diag; [reflexivity|lia].
Qed.
Lemma rd_at mem A b B p : mem = A ++ b :: B -> p = zlen A -> rd mem p = Ok b.
Proof. intros -> ->. apply rd_app. Qed.
Lemma rd_nth mem i v : nth_error mem i = Some v -> rd mem (Z.of_nat i) = Ok v.
Proof.
  intros H. unfold rd. destruct (Z.ltb_spec (Z.of_nat i) 0); [lia|].
  rewrite Nat2Z.id, H. reflexivity.
Qed.
Lemma rd_ok mem p : 0 <= p < zlen mem -> exists v, rd mem p = Ok v.
Proof.
  intros H. unfold rd, zlen in *. destruct (Z.ltb_spec p 0); [lia|].
  destruct (nth_error mem (Z.to_nat p)) eqn:E; [eauto|].
  apply nth_error_None in E. lia.
Qed.
Lemma rd_inv mem p v : rd mem p = Ok v ->
  0 <= p < zlen mem /\ nth_error mem (Z.to_nat p) = Some v.
Proof.
  unfold rd, zlen. destruct (Z.ltb_spec p 0); [discriminate|].
  destruct (nth_error mem (Z.to_nat p)) eqn:E; [|discriminate].
  intros X; injection X as <-. split; [|reflexivity].
  assert (nth_error mem (Z.to_nat p) <> None) by congruence.
  apply nth_error_Some in H0. lia.
Qed.
Lemma rd_byte mem p v : Forall is_byte mem -> rd mem p = Ok v -> is_byte v.
Proof.
  intros F H. apply rd_inv in H. destruct H as [_ H].
  apply nth_error_In in H. rewrite Forall_forall in F. auto.
Qed.
Lemma padd_ok mem p d : 0 <= p + d <= zlen mem -> padd mem p d = Ok (p + d).
Proof.
  intros H. unfold padd.
  destruct (Z.leb_spec 0 (p + d)); destruct (Z.leb_spec (p + d) (zlen mem)); try lia. reflexivity.
Qed.
Lemma padd_inv mem p d q : padd mem p d = Ok q -> q = p + d /\ 0 <= q <= zlen mem.
Proof.
  unfold padd.
  destruct (Z.leb_spec 0 (p + d)); destruct (Z.leb_spec (p + d) (zlen mem));
    cbn; try discriminate. intros X; injection X as <-. lia.
Qed.

(** ** One codepoint in memory: [A ++ lead :: tail ++ B] *)

Record chunk (lead : Z) (tail : list Z) : Prop := {
  ch_byte : is_byte lead;
  ch_lead : is_cont lead = false;
  ch_max : lead < 254;
  ch_tail : Forall continuation_octet tail;
  ch_len : 1 + zlen tail = announced_len lead
}.
Definition chunk_value (lead : Z) (tail : list Z) : Z :=
  fold_left (fun v b => v * 64 + low6 b) tail (lead_bits lead).

Lemma cont_is_byte b : continuation_octet b -> is_byte b.
Proof. unfold continuation_octet, is_byte. lia. Qed.
Lemma cont_is_cont b : continuation_octet b -> is_cont b = true.
Proof. unfold continuation_octet, is_cont. lia. Qed.

(** Rewinding from octet [length t1] of the tail. *)
Lemma rewind_loop_chunk fuel A lead t1 b t2 B ret :
  is_byte lead -> is_cont lead = false -> Forall continuation_octet (t1 ++ [b]) ->
  (length t1 + 1 < fuel)%nat ->
  rewind_loop fuel (A ++ lead :: t1 ++ b :: t2 ++ B) (zlen A + 1 + zlen t1) ret
  = Ok (true, zlen A).
Proof.
  intros Hb Hl.
  revert fuel b t2 ret. induction t1 as [|x t1 IH] using rev_ind; intros fuel b t2 ret HF Hf.
  - destruct fuel as [|fuel]; [cbn in Hf; lia|]. cbn [rewind_loop].
    rewrite (rd_at _ (A ++ [lead]) b (t2 ++ B)).
    2: { rewrite <- app_assoc. reflexivity. }
    2: zl.
    cbn [bind]. inversion HF as [|? ? Hc _]; subst.
    rewrite is_continuation_spec by (apply cont_is_byte; assumption).
    rewrite cont_is_cont by assumption.
    rewrite padd_ok.
    2: zl.
    cbn [bind]. destruct fuel as [|fuel]; [cbn in Hf; lia|]. cbn [rewind_loop].
    rewrite (rd_at _ A lead ([] ++ b :: t2 ++ B)) by (first [reflexivity|zl]).
    cbn [bind]. rewrite is_continuation_spec by assumption. rewrite Hl. f_equal. f_equal. zl.
  - destruct fuel as [|fuel]; [rewrite app_length in Hf; cbn in Hf; lia|]. cbn [rewind_loop].
    rewrite (rd_at _ (A ++ lead :: t1 ++ [x]) b (t2 ++ B)).
    2: { repeat (rewrite <- ?app_assoc; cbn [app]). reflexivity. }
    2: zl.
    cbn [bind]. rewrite Forall_app in HF. destruct HF as [HF1 HF2].
    inversion HF2 as [|? ? Hc _]; subst.
    rewrite is_continuation_spec by (apply cont_is_byte; assumption).
    rewrite cont_is_cont by assumption.
    rewrite padd_ok.
    2: zl.
    cbn [bind].
    specialize (IH fuel x (b :: t2) true HF1).
    rewrite app_length in Hf. cbn [length] in Hf.
    rewrite <- IH by lia. f_equal.
    + repeat (rewrite <- ?app_assoc; cbn [app]). reflexivity.
    + rewrite ?zlen_app, ?zlen_cons, ?zlen_nil. lia.
Qed.

Lemma rewind_chunk A lead tail B j :
  is_byte lead -> is_cont lead = false -> Forall continuation_octet tail ->
  0 <= j <= zlen tail ->
  rewind_to_start_of_codepoint (A ++ lead :: tail ++ B) (zlen A + j) = Ok (0 <? j, zlen A).
Proof.
  intros Hb Hl HF Hj. unfold rewind_to_start_of_codepoint.
  destruct (Z.eq_dec j 0) as [->|Hj0].
  - cbn [rewind_loop]. rewrite (rd_at _ A lead (tail ++ B)) by (first [reflexivity|lia]).
    cbn [bind]. rewrite is_continuation_spec by assumption. rewrite Hl.
    cbn. f_equal. f_equal. lia.
  - assert (exists t1 b t2, tail = t1 ++ b :: t2 /\ zlen t1 = j - 1) as (t1 & b & t2 & -> & Hlen).
    { destruct (nth_error tail (Z.to_nat (j - 1))) as [b|] eqn:E.
      - apply nth_error_split in E. destruct E as (t1 & t2 & -> & L).
        exists t1, b, t2. split; [reflexivity|]. unfold zlen. lia.
      - apply nth_error_None in E. unfold zlen in Hj. lia. }
    replace ((t1 ++ b :: t2) ++ B) with (t1 ++ b :: t2 ++ B) by (rewrite <- app_assoc; reflexivity).
    replace (zlen A + j) with (zlen A + 1 + zlen t1) by lia.
    rewrite rewind_loop_chunk.
    + f_equal. f_equal. lia.
    + assumption.
    + assumption.
    + rewrite Forall_app in HF |- *. destruct HF as [HF1 HF2]. split; [assumption|].
      inversion HF2; subst. apply Forall_cons; [assumption|apply Forall_nil].
    + unfold zlen in *. pose proof (zlen_nonneg A). lia.
Qed.

Lemma forward_chunk A lead tail B j :
  chunk lead tail -> 0 <= j <= zlen tail ->
  forward_one_codepoint (A ++ lead :: tail ++ B) (zlen A + j) = Ok (zlen A + 1 + zlen tail).
Proof.
  intros [Hb Hl Hm HF Hlen] Hj. unfold forward_one_codepoint.
  rewrite rewind_chunk by assumption. cbn [bind].
  rewrite rd_app. cbn [bind]. rewrite codepoint_size_spec by assumption. cbn [bind].
  rewrite padd_ok; [f_equal; lia|].
  rewrite zlen_app, zlen_cons, zlen_app. pose proof (zlen_nonneg A). pose proof (zlen_nonneg B). pose proof (zlen_nonneg tail). lia.
Qed.

Lemma decode_loop_chunk t : forall mem A B v k,
  Forall continuation_octet t ->
  mem = A ++ t ++ B -> (1 <= length A)%nat -> 0 <= v < 2 ^ k -> 0 <= k ->
  k + 6 * zlen t <= 31 ->
  decode_loop (length t) mem (zlen A - 1) v
  = Ok (fold_left (fun v b => v * 64 + low6 b) t v).
Proof.
  induction t as [|b t IH]; intros mem A B v k HF Hm HA Hv Hk Hbits; [reflexivity|].
  rewrite zlen_cons in Hbits. pose proof (zlen_nonneg t).
  assert (P : 2 ^ k <= 2 ^ 25) by (apply Z.pow_le_mono_r; lia).
  change (2 ^ 25) with 33554432 in P.
  inversion HF as [|? ? Hc HF']; subst.
  cbn [length decode_loop].
  rewrite padd_ok by (rewrite zlen_app; cbn [app]; rewrite zlen_cons; pose proof (zlen_nonneg (t ++ B)); unfold zlen in *; lia).
  cbn [bind]. rewrite (rd_at _ A b (t ++ B)) by (first [reflexivity|lia]). cbn [bind].
  unfold shl6. destruct (Z.leb_spec 0 v); [|lia].
  destruct (Z.ltb_spec (v * 64) 4294967296); [|lia]. cbn [andb bind].
  assert (E : to_i32 (v * 64) = v * 64).
  { unfold to_i32. rewrite Z.mod_small by lia. destruct (Z.ltb_spec (v * 64) 2147483648); lia. }
  rewrite E, low6_spec by (apply cont_is_byte; assumption).
  assert (L6 : 0 <= low6 b < 64) by (unfold low6; apply Z.mod_pos_bound; lia).
  rewrite lor_low6 by assumption.
  cbn [fold_left].
  replace (zlen A - 1 + 1) with (zlen (A ++ [b]) - 1) by (rewrite zlen_app, zlen_cons, zlen_nil; lia).
  apply (IH _ (A ++ [b]) B _ (k + 6)).
  - assumption.
  - rewrite <- app_assoc. reflexivity.
  - rewrite app_length. cbn. lia.
  - rewrite Z.pow_add_r by lia. change (2 ^ 6) with 64. lia.
  - lia.
  - lia.
Qed.

Lemma deref_chunk A lead tail B j :
  chunk lead tail -> 0 <= j <= zlen tail ->
  current_codepoint (A ++ lead :: tail ++ B) (zlen A + j)
  = Ok (chunk_value lead tail, zlen A).
Proof.
  intros HC Hj. pose proof HC as [Hb Hl Hm HF Hlen]. unfold current_codepoint.
  destruct (Z.ltb_spec lead 128) as [Hsmall|Hbig].
  - (* ASCII *)
    assert (tail = []) as ->.
    { unfold announced_len in Hlen. destruct (Z.ltb_spec lead 192); [|lia].
      destruct tail; [reflexivity|]. rewrite zlen_cons in Hlen. pose proof (zlen_nonneg tail). lia. }
    replace (zlen A + j) with (zlen A) by zl.
    cbn [app]. rewrite rd_app. cbn [bind]. rewrite is_7bit_spec by assumption.
    destruct (Z.ltb_spec lead 128); [|lia].
    unfold char_int, chunk_value, lead_bits. cbn [fold_left].
    destruct (Z.ltb_spec lead 128); [reflexivity|lia].
  - assert (H192 : 192 <= lead < 254) by (unfold is_cont in Hl; lia).
    assert (exists b, rd (A ++ lead :: tail ++ B) (zlen A + j) = Ok b /\ is_byte b /\ 128 <= b /\ (j = 0 -> b = lead)) as (b & Hrd & Hbb & Hb128 & Hj0).
    { destruct (Z.eq_dec j 0) as [->|].
      - exists lead. rewrite Z.add_0_r, rd_app. repeat split; try assumption; try lia; apply Hb.
      - destruct (nth_error tail (Z.to_nat (j - 1))) as [b|] eqn:E.
        + exists b. pose proof E as E2. apply nth_error_In in E2. rewrite Forall_forall in HF.
          specialize (HF _ E2). apply nth_error_split in E. destruct E as (t1 & t2 & Et & Lt).
          split.
          * rewrite (rd_at _ (A ++ lead :: t1) b (t2 ++ B)); [reflexivity| |].
            -- rewrite Et. repeat (rewrite <- ?app_assoc; cbn [app]). reflexivity.
            -- rewrite zlen_app, zlen_cons. unfold zlen in *. lia.
          * split; [apply cont_is_byte; assumption|]. unfold continuation_octet in HF. lia.
        + apply nth_error_None in E. unfold zlen in Hj. lia. }
    rewrite Hrd. cbn [bind]. rewrite is_7bit_spec by assumption.
    destruct (Z.ltb_spec b 128); [lia|].
    rewrite rewind_chunk by assumption. cbn [bind].
    replace (if 0 <? j then rd (A ++ lead :: tail ++ B) (zlen A) else Ok b) with (Ok lead).
    2: { rewrite rd_app. destruct (Z.ltb_spec 0 j); [reflexivity|]. rewrite Hj0 by lia. reflexivity. }
    cbn [bind]. rewrite codepoint_size_spec by assumption. cbn [bind].
    assert (AL : 2 <= announced_len lead <= 6).
    { unfold announced_len. zcases; lia. }
    destruct (Z.ltb_spec (7 - announced_len lead) 0); [lia|].
    rewrite mask_spec by assumption.
    replace (Z.to_nat (announced_len lead - 1)) with (length tail) by (unfold zlen in Hlen; lia).
    replace (decode_loop (length tail) (A ++ lead :: tail ++ B) (zlen A) (lead_bits lead))
      with (@Ok Z (chunk_value lead tail)); [reflexivity|].
    symmetry. replace (zlen A) with (zlen (A ++ [lead]) - 1) by (rewrite zlen_app, zlen_cons, zlen_nil; lia).
    apply (decode_loop_chunk tail _ (A ++ [lead]) B _ (7 - announced_len lead)).
    + assumption.
    + rewrite <- app_assoc. reflexivity.
    + rewrite app_length. cbn. lia.
    + apply lead_bits_range; assumption.
    + lia.
    + lia.
Qed.

Lemma eq_loop_spec n : forall mem p q,
  0 <= p -> p + Z.of_nat n <= zlen mem ->
  eq_loop n mem p q = Ok ((p <=? q) && (q <? p + Z.of_nat n)).
Proof.
  induction n as [|n IH]; intros mem p q Hp Hn; cbn [eq_loop].
  - f_equal. lia.
  - destruct (Z.eqb_spec p q); [f_equal; lia|].
    rewrite padd_ok by lia. cbn [bind]. rewrite IH by lia. f_equal. lia.
Qed.

Lemma eq_chunk A lead tail B j q :
  chunk lead tail -> 0 <= j <= zlen tail ->
  it_eq (A ++ lead :: tail ++ B) (zlen A + j) q
  = Ok ((zlen A <=? q) && (q <? zlen A + 1 + zlen tail)).
Proof.
  intros [Hb Hl Hm HF Hlen] Hj. unfold it_eq.
  rewrite rewind_chunk by assumption. cbn [bind].
  rewrite rd_app. cbn [bind]. rewrite codepoint_size_spec by assumption. cbn [bind].
  rewrite eq_loop_spec.
  - f_equal. rewrite <- Hlen. pose proof (zlen_nonneg tail). lia.
  - apply zlen_nonneg.
  - rewrite zlen_app, zlen_cons, zlen_app. pose proof (zlen_nonneg A). pose proof (zlen_nonneg B). pose proof (zlen_nonneg tail). lia.
Qed.

Lemma decr_chunk A lead0 tail0 lead tail B j :
  chunk lead0 tail0 -> chunk lead tail -> 0 <= j <= zlen tail ->
  rewind_one_codepoint ((A ++ lead0 :: tail0) ++ lead :: tail ++ B) (zlen (A ++ lead0 :: tail0) + j)
  = Ok (zlen A).
Proof.
  intros [Hb0 Hl0 Hm0 HF0 Hlen0] [Hb Hl Hm HF Hlen] Hj. unfold rewind_one_codepoint.
  rewrite rewind_chunk by assumption. cbn [bind].
  rewrite padd_ok.
  2: zl.
  cbn [bind]. replace (zlen (A ++ lead0 :: tail0) + -1) with (zlen A + zlen tail0) by (rewrite zlen_app, zlen_cons; lia).
  rewrite <- app_assoc. cbn [app].
  rewrite rewind_chunk by (try assumption; pose proof (zlen_nonneg tail0); lia).
  reflexivity.
Qed.

(** The specified encoding of a codepoint is one chunk with that value. *)
Lemma utf8_encode_chunk c : codepoint31 c ->
  exists lead tail, utf8_encode c = lead :: tail /\ chunk lead tail /\ chunk_value lead tail = c.
Proof.
  unfold codepoint31. change (2 ^ 31) with 2147483648. intros Hc.
  assert (CO : forall k, continuation_octet (cont c k)).
  { intros k. unfold cont, continuation_octet. pose proof (Z.mod_pos_bound (c / 2 ^ k) 64 ltac:(lia)). lia. }
  assert (L6 : forall k, low6 (cont c k) = (c / 2 ^ k) mod 64).
  { intros k. unfold low6, cont. replace 128 with (2 * 64) by lia.
    rewrite Z.add_comm, Z.mod_add, Z.mod_mod by lia. reflexivity. }
  assert (M : forall lead n q base, announced_len lead = n -> 128 <= lead -> lead = base + q ->
              0 <= q < 2 ^ (7 - n) -> base mod 2 ^ (7 - n) = 0 -> lead_bits lead = q).
  { intros lead n q base E1 E2 E3 E4 E5. unfold lead_bits. destruct (Z.ltb_spec lead 128); [lia|].
    rewrite E1, E3. rewrite Z.add_mod by lia. rewrite E5.
    rewrite (Z.mod_small q) by lia. rewrite Z.add_0_l. apply Z.mod_small. lia. }
  unfold utf8_encode.
  change (2 ^ 0) with 1 in *. change (2 ^ 6) with 64; change (2 ^ 12) with 4096;
       change (2 ^ 18) with 262144; change (2 ^ 24) with 16777216; change (2 ^ 30) with 1073741824.
  destruct (Z.ltb_spec c 0x80) as [h0|h0].
  { exists c, []. split; [reflexivity|]. split.
    - constructor; [unfold is_byte; lia|unfold is_cont; lia|lia|constructor|].
      unfold announced_len. zcases; zl.
    - unfold chunk_value, lead_bits. cbn [fold_left]. zcases; lia. }
  destruct (Z.ltb_spec c 0x800) as [h1|h1].
  { assert (Q : 2 <= c / 64 < 32) by (Z.div_mod_to_equations; lia).
    assert (A : announced_len (192 + c / 64) = 2) by (unfold announced_len; zcases; lia).
    eexists; eexists; split; [reflexivity|]. split.
    - constructor; [unfold is_byte; lia|unfold is_cont; lia|lia|repeat (constructor; try apply CO)|].
      rewrite A. reflexivity.
    - unfold chunk_value. cbn [fold_left]. rewrite (M _ 2 (c / 64) 192); rewrite ?L6;
        change (2 ^ 0) with 1; try reflexivity; try (change (2 ^ (7 - 2)) with 32); try lia; try (Z.div_mod_to_equations; lia). }
  destruct (Z.ltb_spec c 0x10000) as [h2|h2].
  { assert (Q : 0 <= c / 4096 < 16) by (Z.div_mod_to_equations; lia).
    assert (A : announced_len (224 + c / 4096) = 3) by (unfold announced_len; zcases; lia).
    eexists; eexists; split; [reflexivity|]. split.
    - constructor; [unfold is_byte; lia|unfold is_cont; lia|lia|repeat (constructor; try apply CO)|].
      rewrite A. reflexivity.
    - unfold chunk_value. cbn [fold_left]. rewrite (M _ 3 (c / 4096) 224); rewrite ?L6;
        change (2 ^ 0) with 1; change (2 ^ 6) with 64;
        try reflexivity; try (change (2 ^ (7 - 3)) with 16); try lia; try (Z.div_mod_to_equations; lia). }
  destruct (Z.ltb_spec c 0x200000) as [h3|h3].
  { assert (Q : 0 <= c / 262144 < 8) by (Z.div_mod_to_equations; lia).
    assert (A : announced_len (240 + c / 262144) = 4) by (unfold announced_len; zcases; lia).
    eexists; eexists; split; [reflexivity|]. split.
    - constructor; [unfold is_byte; lia|unfold is_cont; lia|lia|repeat (constructor; try apply CO)|].
      rewrite A. reflexivity.
    - unfold chunk_value. cbn [fold_left]. rewrite (M _ 4 (c / 262144) 240); rewrite ?L6;
        change (2 ^ 0) with 1; change (2 ^ 6) with 64; change (2 ^ 12) with 4096;
        try reflexivity; try (change (2 ^ (7 - 4)) with 8); try lia; try (Z.div_mod_to_equations; lia). }
  destruct (Z.ltb_spec c 0x4000000) as [h4|h4].
  { assert (Q : 0 <= c / 16777216 < 4) by (Z.div_mod_to_equations; lia).
    assert (A : announced_len (248 + c / 16777216) = 5) by (unfold announced_len; zcases; lia).
    eexists; eexists; split; [reflexivity|]. split.
    - constructor; [unfold is_byte; lia|unfold is_cont; lia|lia|repeat (constructor; try apply CO)|].
      rewrite A. reflexivity.
    - unfold chunk_value. cbn [fold_left]. rewrite (M _ 5 (c / 16777216) 248); rewrite ?L6;
        change (2 ^ 0) with 1; change (2 ^ 6) with 64; change (2 ^ 12) with 4096; change (2 ^ 18) with 262144;
        try reflexivity; try (change (2 ^ (7 - 5)) with 4); try lia; try (Z.div_mod_to_equations; lia). }
  { assert (Q : 0 <= c / 1073741824 < 2) by (Z.div_mod_to_equations; lia).
    assert (A : announced_len (252 + c / 1073741824) = 6) by (unfold announced_len; zcases; lia).
    eexists; eexists; split; [reflexivity|]. split.
    - constructor; [unfold is_byte; lia|unfold is_cont; lia|lia|repeat (constructor; try apply CO)|].
      rewrite A. reflexivity.
    - unfold chunk_value. cbn [fold_left]. rewrite (M _ 6 (c / 1073741824) 252); rewrite ?L6;
        change (2 ^ 0) with 1; change (2 ^ 6) with 64; change (2 ^ 12) with 4096; change (2 ^ 18) with 262144;
        change (2 ^ 24) with 16777216;
        try reflexivity; try (change (2 ^ (7 - 6)) with 2); try lia; try (Z.div_mod_to_equations; lia). }
Qed.
