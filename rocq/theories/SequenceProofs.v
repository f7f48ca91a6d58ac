(** * Proofs: UTF-8 iterators over any complete octet sequences (not only shortest forms) *)
From Verif Require Import Prelude Utf8Model TextModel Utf8Spec Utf8Proofs LawfulProofs IterProofs.
Require Import ZifyBool ZifyNat.

Lemma sequence_chunk o : octet_sequence o ->
  exists lead tail, o = lead :: tail /\ chunk lead tail /\ chunk_value lead tail = sequence_value o.
Proof.
  intros ((l & t & -> & N & F & L) & U). exists l, t. split; [reflexivity|].
  inversion U as [|? ? UL UT]; subst. unfold octet_upto_FD in UL.
  split; [|reflexivity]. constructor.
  - unfold is_byte. lia.
  - unfold is_cont, continuation_octet in *. lia.
  - lia.
  - assumption.
  - rewrite <- L. zl.
Qed.
Lemma encode_sequence c : codepoint31 c -> octet_sequence (utf8_encode c) /\ sequence_value (utf8_encode c) = c.
Proof.
  intros H. destruct (utf8_encode_chunk c H) as (l & t & E & C & V). rewrite E. split; [|exact V]. split.
  - exists l, t. split; [reflexivity|]. split; [|split; [apply C|rewrite <- (ch_len _ _ C); zl]].
    pose proof (ch_lead _ _ C) as NL. unfold is_cont, continuation_octet in *. lia.
  - constructor; [destruct C as [B _ M _ _]; unfold is_byte, octet_upto_FD in *; lia|].
    eapply Forall_impl; [|apply C]. unfold continuation_octet, octet_upto_FD. lia.
Qed.
Lemma text_sequences cs : Forall codepoint31 cs ->
  Forall octet_sequence (map utf8_encode cs) /\ map sequence_value (map utf8_encode cs) = cs /\ concat (map utf8_encode cs) = utf8_text cs.
Proof.
  intros F. split; [|split].
  - induction F as [|c cs H F IH]; constructor; [apply encode_sequence; assumption|assumption].
  - induction F as [|c cs H F IH]; cbn [map]; [reflexivity|]. rewrite IH. f_equal. apply encode_sequence. assumption.
  - unfold utf8_text. rewrite flat_map_concat_map. reflexivity.
Qed.

Definition spos (base : Z) (os : list (list Z)) (i : nat) : Z := base + zlen (concat (firstn i os)).
Definition sinside (base : Z) (os : list (list Z)) (i : nat) (p : Z) : Prop := spos base os i <= p < spos base os (S i).
Lemma spos_0 base os : spos base os 0 = base.
Proof. unfold spos. cbn. lia. Qed.
Lemma spos_S base os i o : nth_error os i = Some o -> spos base os (S i) = spos base os i + zlen o.
Proof.
  intros H. unfold spos. rewrite (firstn_S_nth _ _ _ H), concat_app. cbn [concat]. rewrite app_nil_r. zl.
Qed.
Lemma spos_le base os i j : (i <= j)%nat -> spos base os i <= spos base os j.
Proof.
  intros H. induction H as [|j H IH]; [lia|].
  destruct (nth_error os j) as [c|] eqn:E.
  - rewrite (spos_S _ _ _ _ E). pose proof (zlen_nonneg c). lia.
  - apply nth_error_None in E. unfold spos in *. rewrite (firstn_all2 (n:=S j)) by lia.
    rewrite (firstn_all2 (n:=j)) in IH by lia. lia.
Qed.
Lemma seq_locate pre os post i o p :
  Forall octet_sequence os -> nth_error os i = Some o -> sinside (zlen pre) os i p ->
  exists A lead tail B j,
    pre ++ concat os ++ post = A ++ lead :: tail ++ B /\
    A = pre ++ concat (firstn i os) /\
    chunk lead tail /\ chunk_value lead tail = sequence_value o /\ o = lead :: tail /\
    zlen A = spos (zlen pre) os i /\
    spos (zlen pre) os (S i) = zlen A + 1 + zlen tail /\
    p = zlen A + j /\ 0 <= j <= zlen tail.
Proof.
  intros HF E [Hp1 Hp2].
  assert (HC : octet_sequence o) by (rewrite Forall_forall in HF; apply HF; eapply nth_error_In; eauto).
  destruct (sequence_chunk o HC) as (lead & tail & Eo & Hch & Hval).
  rewrite (spos_S _ _ _ _ E) in Hp2.
  assert (LA : zlen (pre ++ concat (firstn i os)) = spos (zlen pre) os i) by (unfold spos; apply zlen_app).
  exists (pre ++ concat (firstn i os)), lead, tail, (concat (skipn (S i) os) ++ post), (p - spos (zlen pre) os i).
  split.
  { rewrite (nth_split_at _ _ _ E) at 1. rewrite concat_app. cbn [concat]. rewrite Eo. rewrite <- !app_assoc. cbn [app]. rewrite <- ?app_assoc. reflexivity. }
  split; [reflexivity|]. split; [assumption|]. split; [assumption|]. split; [assumption|]. split; [assumption|].
  split; [rewrite (spos_S _ _ _ _ E), Eo, LA; zl|]. split; [lia|]. rewrite Eo in Hp2. zl.
Qed.
Lemma spos_lt base os i j : Forall octet_sequence os -> (i < j)%nat -> (i < length os)%nat -> spos base os i < spos base os j.
Proof.
  intros HF H Hi. destruct (nth_lt_some os i Hi) as [o E].
  pose proof (spos_le base os (S i) j ltac:(lia)) as Q. rewrite (spos_S _ _ _ _ E) in Q.
  assert (HC : octet_sequence o) by (rewrite Forall_forall in HF; apply HF; eapply nth_error_In; eauto).
  destruct (sequence_chunk o HC) as (lead & tail & -> & _). zl.
Qed.
Lemma map_nth_some {A B} (f : A -> B) l i y : nth_error (map f l) i = Some y -> exists x, nth_error l i = Some x /\ f x = y.
Proof.
  rewrite nth_error_map. destruct (nth_error l i) as [x|]; cbn; [|discriminate]. intros E. injection E as E. eauto.
Qed.
Lemma seq_lawful pre os post : Forall octet_sequence os ->
  lawful (utf8_ops (pre ++ concat os ++ post)) (map sequence_value os) (spos (zlen pre) os) (sinside (zlen pre) os).
Proof.
  intros HF. constructor; rewrite ?map_length.
  - intros i Hi. split; [lia|]. apply spos_lt; try assumption. lia.
  - intros i p c E Hin. destruct (map_nth_some _ _ _ _ E) as (o & Eo & <-).
    destruct (seq_locate pre os post i o p HF Eo Hin) as (A & lead & tail & B & j & EM & _ & Hch & Hv & _ & LA & _ & -> & Hj).
    cbn [op_deref utf8_ops]. unfold it_deref. rewrite EM, deref_chunk by assumption. rewrite Hv, LA. reflexivity.
  - intros i p Hi Hin. destruct (nth_lt_some os i ltac:(lia)) as [o E].
    destruct (seq_locate pre os post i o p HF E Hin) as (A & lead & tail & B & j & EM & _ & Hch & Hv & _ & LA & LS & -> & Hj).
    cbn [op_inc utf8_ops]. unfold it_preinc. rewrite EM, forward_chunk by assumption. rewrite LS. reflexivity.
  - intros i p Hi Hin. destruct (nth_lt_some os i ltac:(lia)) as [o E].
    destruct (seq_locate pre os post i o p HF E Hin) as (A & lead & tail & B & j & EM & _ & Hch & Hv & _ & LA & LS & -> & Hj).
    cbn [op_postinc utf8_ops]. unfold it_postinc, it_preinc. rewrite EM, forward_chunk by assumption. cbn [bind]. rewrite LS. reflexivity.
  - intros i p Hi Hin. destruct (nth_lt_some os (S i) Hi) as [o E]. destruct (nth_lt_some os i ltac:(lia)) as [o0 E0].
    destruct (seq_locate pre os post (S i) o p HF E Hin) as (A & lead & tail & B & j & EM & EA & Hch & Hv & _ & LA & LS & -> & Hj).
    assert (HC : octet_sequence o0) by (rewrite Forall_forall in HF; apply HF; eapply nth_error_In; eauto).
    destruct (sequence_chunk o0 HC) as (lead0 & tail0 & Eo0 & Hch0 & _).
    assert (EA' : A = (pre ++ concat (firstn i os)) ++ lead0 :: tail0).
    { rewrite EA, (firstn_S_nth _ _ _ E0), concat_app. cbn [concat]. rewrite app_nil_r, Eo0, app_assoc. reflexivity. }
    cbn [op_dec utf8_ops]. unfold it_predec. rewrite EM, EA'. rewrite decr_chunk by assumption. unfold spos. rewrite zlen_app. reflexivity.
  - intros i j p q Hi Hj Hp Hq. destruct (nth_lt_some os i Hi) as [o E].
    destruct (seq_locate pre os post i o p HF E Hp) as (A & lead & tail & B & jj & EM & _ & Hch & Hv & _ & LA & LS & -> & Hjj).
    cbn [op_eq utf8_ops]. rewrite EM, eq_chunk by assumption. f_equal.
    rewrite <- LS, LA. destruct Hq as [Hq1 Hq2].
    destruct (Nat.eqb_spec i j) as [->|Hne]; [lia|].
    destruct (Nat.lt_ge_cases i j).
    + pose proof (spos_le (zlen pre) os (S i) j ltac:(lia)). lia.
    + pose proof (spos_le (zlen pre) os (S j) i ltac:(lia)). lia.
Qed.
Lemma nul_sequence : octet_sequence [0].
Proof.
  split; [|repeat constructor; unfold octet_upto_FD; lia].
  exists 0, []. split; [reflexivity|]. split; [unfold continuation_octet; lia|]. split; [constructor|reflexivity].
Qed.
Lemma seq_view_lawful before os o after : Forall octet_sequence os -> octet_sequence o ->
  lawful (utf8_ops (before ++ concat os ++ o ++ after)) (map sequence_value os ++ [sequence_value o])
    (spos (zlen before) (os ++ [o])) (sinside (zlen before) (os ++ [o])).
Proof.
  intros F O. replace (before ++ concat os ++ o ++ after) with (before ++ concat (os ++ [o]) ++ after)
    by (rewrite concat_app; cbn [concat]; rewrite app_nil_r, <- app_assoc; reflexivity).
  replace (map sequence_value os ++ [sequence_value o]) with (map sequence_value (os ++ [o])) by (rewrite map_app; reflexivity).
  apply seq_lawful. apply Forall_app. split; [assumption|repeat constructor; apply O].
Qed.
Lemma seq_string_lawful os : Forall octet_sequence os ->
  lawful (utf8_ops (string_buffer (concat os))) (map sequence_value os ++ [0]) (spos 0 (os ++ [[0]])) (sinside 0 (os ++ [[0]])).
Proof.
  intros F. pose proof (seq_view_lawful [] os [0] [] F nul_sequence) as L. cbn [app] in L. exact L.
Qed.
Lemma spos_firstn base os o i : (i <= length os)%nat -> spos base (os ++ [o]) i = base + zlen (concat (firstn i os)).
Proof. intros H. unfold spos. rewrite firstn_app. replace (i - length os)%nat with 0%nat by lia. cbn [firstn]. rewrite app_nil_r. reflexivity. Qed.
Lemma spos_end base os o : spos base (os ++ [o]) (length os) = base + zlen (concat os).
Proof. rewrite spos_firstn, firstn_all by lia. reflexivity. Qed.

Lemma seq_loops before os o after fuel : Forall octet_sequence os -> octet_sequence o -> (length os < fuel)%nat ->
  let mem := before ++ concat os ++ o ++ after in
  let b := zlen before in let e := zlen before + zlen (concat os) in
  iterate_codepoints fuel (utf8_ops mem) b e = Ok (map sequence_value os) /\
  iterate_codepoints_for fuel (utf8_ops mem) b e = Ok (map sequence_value os) /\
  iterate_backwards fuel (utf8_ops mem) e b = Ok (rev (map sequence_value os)).
Proof.
  intros F O Hf mem b e. pose proof (seq_view_lawful before os o after F O) as L. fold mem in L.
  set (cs := map sequence_value os) in *. set (c := sequence_value o) in *.
  assert (LC : length cs = length os) by (subst cs; apply map_length).
  assert (P0 : sinside (zlen before) (os ++ [o]) 0 b).
  { pose proof (lw_pos _ _ _ _ L 0%nat) as P. rewrite spos_0 in P. apply P. rewrite app_length. cbn. lia. }
  assert (P1 : sinside (zlen before) (os ++ [o]) (length cs) e).
  { pose proof (lw_pos _ _ _ _ L (length cs)) as P. rewrite LC in *. rewrite spos_end in P. apply P. rewrite app_length. cbn. lia. }
  assert (LL : (0 <= length cs < length (cs ++ [c]))%nat) by (rewrite app_length; cbn; lia).
  split; [|split].
  - rewrite (iterate_lawful _ _ _ _ L (length cs) 0 (length cs)); try assumption; [rewrite sub_whole; reflexivity|lia..].
  - rewrite (iterate_for_lawful _ _ _ _ L (length cs) 0 (length cs)); try assumption; [rewrite sub_whole; reflexivity|lia..].
  - rewrite (iterate_backwards_lawful _ _ _ _ L (length cs) 0 (length cs)); try assumption; [rewrite sub_whole; reflexivity|lia..].
Qed.
Lemma seq_values os : Forall octet_sequence os -> Forall codepoint31 (map sequence_value os).
Proof.
  induction 1 as [|o os O F IH]; constructor; [|assumption].
  destruct (sequence_chunk o O) as (l & t & -> & C & <-). destruct C as [B NL M FT L].
  unfold chunk_value, codepoint31.
  assert (G : forall t v n, Forall continuation_octet t -> 0 <= v < 2 ^ n -> 0 <= n ->
    0 <= fold_left (fun v b => v * 64 + low6 b) t v < 2 ^ (n + 6 * zlen t)).
  { clear. induction t as [|b t IH]; intros v n F V N; cbn [fold_left].
    - rewrite Z.add_0_r. assumption.
    - inversion F; subst. replace (n + 6 * zlen (b :: t)) with ((n + 6) + 6 * zlen t) by zl. apply IH; [assumption| |lia].
      rewrite Z.pow_add_r by lia. change (2 ^ 6) with 64. unfold low6. pose proof (Z.mod_pos_bound b 64). lia. }
  assert (LB : exists n, 0 <= lead_bits l < 2 ^ n /\ 0 <= n /\ n + 6 * zlen t <= 31).
  { unfold lead_bits, is_byte in *. unfold is_cont in NL. destruct (Z.ltb_spec l 128) as [H|H].
    - exists 7. assert (announced_len l = 1) by (unfold announced_len; zcases; lia). lia.
    - exists (7 - announced_len l).
      assert (2 <= announced_len l <= 6) by (unfold announced_len; zcases; lia).
      split; [apply Z.mod_pos_bound; apply Z.pow_pos_nonneg; lia|lia]. }
  destruct LB as (n & V & N & LE). specialize (G t _ n FT V N).
  assert (2 ^ (n + 6 * zlen t) <= 2 ^ 31) by (apply Z.pow_le_mono_r; lia). lia.
Qed.
