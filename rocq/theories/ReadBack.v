(** * Proofs: what is read back from a text written with append_from_utf32ne *)
From Verif Require Import Prelude Utf8Model TextModel Utf8Spec RangeSpec Utf8Proofs LawfulProofs IterProofs ByteProofs EncodeProofs AppendProofs EncodeText SequenceProofs RangeProofs.
Require Import ZifyBool ZifyNat.

(** ** Sequences of the announced length, whatever follows the first octet *)
Definition loose (o : list Z) : Prop :=
  exists lead tail, o = lead :: tail /\ ~ continuation_octet lead /\ Forall octet_upto_FD o /\ zlen o = announced_len lead.
Lemma loose_pos o : loose o -> 1 <= zlen o.
Proof. intros (h & t & -> & _). zl. Qed.
Lemma octet_at A x B : octet (A ++ x :: B) (zlen A) = x.
Proof. unfold octet, zlen. rewrite Nat2Z.id, app_nth2, Nat.sub_diag by lia. reflexivity. Qed.
Section Loose.
Context (s : list Z) (US : Forall octet_upto_FD s).
Let mem := string_buffer s.
Lemma loose_here A o B : s = A ++ o ++ B -> loose o ->
  closest_lead mem (zlen A) (zlen A) /\ extent mem (zlen A) = zlen A + zlen o /\ value_at mem (zlen A) = sequence_value o.
Proof.
  intros E (h & t & EO & C & _ & L).
  assert (M : mem = A ++ h :: (t ++ B ++ [0])) by (unfold mem, string_buffer; rewrite E, EO, <- !app_assoc; reflexivity).
  assert (O : octet mem (zlen A) = h) by (rewrite M; apply octet_at).
  split; [|split].
  - split; [zl|]. split; [rewrite O; assumption|]. intros k K. lia.
  - unfold extent. rewrite O. lia.
  - unfold value_at, octets_at. rewrite O, M. unfold zlen at 1. rewrite Nat2Z.id, skipn_app, skipn_all, Nat.sub_diag. cbn [app skipn].
    f_equal. rewrite EO. rewrite <- L, EO. unfold zlen. rewrite Nat2Z.id. change (h :: t ++ B ++ [0]) with ((h :: t) ++ B ++ [0]).
    rewrite firstn_app, Nat.sub_diag, firstn_all. apply app_nil_r.
Qed.
Lemma end_here : closest_lead mem (zlen s) (zlen s) /\ zlen s < extent mem (zlen s).
Proof.
  assert (O : octet mem (zlen s) = 0) by (unfold mem, string_buffer; apply octet_at).
  split.
  - split; [zl|]. split; [rewrite O; unfold continuation_octet; lia|]. intros k K. lia.
  - unfold extent. rewrite O. cbn. lia.
Qed.
Lemma loose_walk os : forall A, s = A ++ concat os -> Forall loose os ->
  exists rs, forward_walk mem (zlen s) (zlen A) rs /\ map (value_at mem) rs = map sequence_value os.
Proof.
  induction os as [|o os IH]; intros A E F; cbn [concat] in E.
  - rewrite app_nil_r in E. subst A. destruct end_here as [C L]. exists []. split; [econstructor; eassumption|reflexivity].
  - pose proof (Forall_inv F) as Lo. pose proof (Forall_inv_tail F) as F'. destruct (loose_here A o (concat os) E Lo) as (C & X & V).
    destruct (IH (A ++ o)) as (rs & W & M); [rewrite <- app_assoc; assumption|assumption|].
    exists (zlen A :: rs). split; [|cbn [map]; rewrite V, M; reflexivity].
    econstructor; [exact C| |].
    + rewrite X. rewrite E, !zlen_app. pose proof (zlen_nonneg (concat os)). lia.
    + rewrite X, <- zlen_app. exact W.
Qed.
Lemma loose_visited os : s = concat os -> Forall loose os -> forall p, visited mem (zlen s) p ->
  exists A B, os = A ++ B /\ p = zlen (concat A).
Proof.
  intros E F p V. induction V as [|p r V (A & B & EO & EP) H L].
  - exists [], os. split; reflexivity.
  - subst p. destruct B as [|o B].
    + rewrite app_nil_r in EO. subst A. rewrite <- E in H. destruct end_here as [C L']. 
      assert (r = zlen s) by (eapply closest_lead_unique; eassumption). subst r. unfold extent in L'. lia.
    + rewrite EO in F. apply Forall_app in F. destruct F as [_ F]. pose proof (Forall_inv F) as Lo.
      destruct (loose_here (concat A) o (concat B)) as (C & X & _); [rewrite E, EO, concat_app; reflexivity|assumption|].
      assert (r = zlen (concat A)) by (eapply closest_lead_unique; eassumption). subst r.
      exists (A ++ [o]), B. split; [rewrite <- app_assoc; assumption|]. unfold extent in X. rewrite X, concat_app, zlen_app. cbn [concat].
      rewrite app_nil_r. reflexivity.
Qed.
Lemma loose_loops os fuel : s = concat os -> Forall loose os -> (length os < fuel)%nat ->
  iterate_codepoints fuel (utf8_ops mem) 0 (zlen s) = Ok (map sequence_value os) /\
  iterate_codepoints_for fuel (utf8_ops mem) 0 (zlen s) = Ok (map sequence_value os).
Proof.
  intros E F Hf. destruct (loose_walk os [] E F) as (rs & W & M). change (zlen (@nil Z)) with 0 in W.
  assert (LR : length rs = length os) by (apply (f_equal (@length Z)) in M; rewrite !map_length in M; assumption).
  rewrite <- M. refine (proj2 (forward_values s US _) rs fuel _ W _); [|intros p V|lia].
  - destruct os as [|o os]; [subst s; cbn; unfold continuation_octet; lia|]. pose proof (Forall_inv F) as Lo.
    destruct Lo as (h & t & -> & C & _). rewrite E. cbn. exact C.
  - destruct (loose_visited os E F p V) as (A & B & EO & ->). intros (r & R & S).
    assert (C : closest_lead mem (zlen (concat A)) (zlen (concat A))).
    { destruct B as [|o B].
      - rewrite app_nil_r in EO. subst A. rewrite <- E. apply end_here.
      - rewrite EO in F. apply Forall_app in F. destruct F as [_ F]. pose proof (Forall_inv F) as Lo.
        apply (loose_here (concat A) o (concat B)); [rewrite E, EO, concat_app; reflexivity|assumption]. }
    assert (r = zlen (concat A)) by (eapply closest_lead_unique; eassumption). subst r.
    pose proof (announced_len_range (octet mem (zlen (concat A)))). fold mem in S. lia.
Qed.
End Loose.

(** ** The octets written for one codepoint, and their value *)
Lemma fold_conts c n : forall v, fold_left (fun v b => v * 64 + b mod 64) (conts c n) v = v * 64 ^ Z.of_nat n + c mod 64 ^ Z.of_nat n.
Proof.
  induction n as [|n IH]; intros v; cbn [conts fold_left].
  - rewrite Z.mod_1_r. change (64 ^ Z.of_nat 0) with 1. lia.
  - rewrite IH. replace (Z.of_nat (S n)) with (Z.of_nat n + 1) by lia. rewrite Z.pow_add_r by lia. change (64 ^ 1) with 64.
    assert (K : 0 < 64 ^ Z.of_nat n) by (apply Z.pow_pos_nonneg; lia).
    assert (E : cont c (6 * Z.of_nat n) mod 64 = (c / 64 ^ Z.of_nat n) mod 64).
    { unfold cont. rewrite Z.pow_mul_r by lia. change (2 ^ 6) with 64. replace 128 with (2 * 64) by lia.
      rewrite Z.add_comm, Z.mod_add, Z.mod_mod by lia. reflexivity. }
    rewrite E. rewrite (Z.rem_mul_r c (64 ^ Z.of_nat n) 64) by lia. lia.
Qed.
Lemma fold_zeros m : forall v, fold_left (fun v b => v * 64 + b mod 64) (repeat 0 m) v = v * 64 ^ Z.of_nat m.
Proof.
  induction m as [|m IH]; intros v; cbn [repeat fold_left]; [change (64 ^ Z.of_nat 0) with 1; lia|]. rewrite IH.
  replace (Z.of_nat (S m)) with (Z.of_nat m + 1) by lia. rewrite Z.pow_add_r by lia. rewrite Z.mod_0_l by lia. lia.
Qed.
Lemma fold_bound l : forall v, 0 <= v -> v * 64 ^ zlen l <= fold_left (fun v b => v * 64 + b mod 64) l v < (v + 1) * 64 ^ zlen l.
Proof.
  induction l as [|b l IH]; intros v Hv; cbn [fold_left]; [change (64 ^ zlen (@nil Z)) with 1; lia|].
  specialize (IH (v * 64 + b mod 64)). rewrite zlen_cons. pose proof (zlen_nonneg l). rewrite Z.pow_add_r by lia. change (64 ^ 1) with 64.
  pose proof (Z.mod_pos_bound b 64 ltac:(lia)). assert (K : 0 < 64 ^ zlen l) by (apply Z.pow_pos_nonneg; lia). nia.
Qed.
Lemma conts_upto c n : Forall octet_upto_FD (conts c n).
Proof. eapply Forall_impl; [|apply conts_cont]. intros b. unfold continuation_octet, octet_upto_FD. lia. Qed.
Lemma Forall_firstn {A} (P : A -> Prop) n l : Forall P l -> Forall P (firstn n l).
Proof. intros F. revert n. induction F; intros [|n]; cbn; constructor; auto. Qed.
Lemma first_octet_sweep_7 n q : 2 <= n <= 5 -> 1 <= q < 128 ->
  let b := Z.lor (256 - 2 ^ (8 - n)) q in
  192 <= b < 256 /\ (b < 255 -> announced_len b <= n \/ q <> 64 ^ (announced_len b - n) * (b mod 2 ^ (7 - announced_len b))).
Proof.
  intros Hn Hq. cbv zeta.
  assert (E := byte_sweep (fun q => forallb (fun n => let b := Z.lor (256 - 2 ^ (8 - n)) q in
      negb ((1 <=? q) && (q <? 128)) || ((192 <=? b) && (b <? 256) && (negb (b <? 255) || (announced_len b <=? n) ||
        negb (q =? 64 ^ (announced_len b - n) * (b mod 2 ^ (7 - announced_len b)))))) [2;3;4;5])
    ltac:(vm_compute; reflexivity) q ltac:(unfold is_byte; lia)).
  cbv beta in E. rewrite forallb_forall in E. specialize (E n ltac:(cbn; lia)). cbv beta zeta in E. lia.
Qed.
Lemma no_coincidence K M P q r : K = 64 \/ K = 4096 \/ K = 262144 \/ K = 16777216 ->
  M = 64 \/ M = 4096 \/ M = 262144 \/ M = 16777216 \/ M = 1073741824 ->
  0 <= r < K -> (P * K + r) * M = K * q + r -> q = M * P.
Proof.
  intros KE ME RB V. destruct KE as [->|[->|[->| ->]]]; destruct ME as [->|[->|[->|[->| ->]]]]; lia.
Qed.
Lemma wrong_value c n : encoded_size c = Ok n -> 128 <= c < 2147483648 -> ~ sized_ok c ->
  let b := first_octet n c in let a := announced_len b in b < 255 ->
  2 <= n <= 5 /\ 2 <= a <= 7 /\
  fold_left (fun v b => v * 64 + b mod 64) (firstn (Z.to_nat (a - 1)) (conts c (Z.to_nat (n - 1)) ++ repeat 0 (Z.to_nat (7 - n)))) (b mod 2 ^ (7 - a)) <> c.
Proof.
  intros ES' Hc N. cbv zeta. intros LT.
  destruct (encoded_size_ranges c ltac:(lia)) as (n' & ES & N1 & N2 & N3 & N4 & N5).
  assert (n' = n) by congruence. subst n'. clear ES'.
  unfold sized_ok in N. assert (Hn : 2 <= n <= 5) by lia. split; [assumption|].
  set (K := 64 ^ (n - 1)). set (q := c / K).
  assert (KP : 0 < K) by (apply Z.pow_pos_nonneg; lia).
  assert (EK : 2 ^ (6 * (n - 1)) = K) by (unfold K; rewrite Z.pow_mul_r by lia; reflexivity).
  assert (KE : (n = 2 /\ K = 64) \/ (n = 3 /\ K = 4096) \/ (n = 4 /\ K = 262144) \/ (n = 5 /\ K = 16777216)).
  { assert (Dn : n = 2 \/ n = 3 \/ n = 4 \/ n = 5) by (clear - Hn; lia). unfold K. clear - Dn. destruct Dn as [->|[->|[->| ->]]]; auto. }
  assert (Hq : 1 <= q < 128).
  { unfold q. clear - KE KP N Hc N1 N2 N3 N4 N5. 
    split; [apply Z.div_le_lower_bound|apply Z.div_lt_upper_bound]; lia. }
  destruct (first_octet_sweep_7 n q Hn Hq) as (B & SW). cbv zeta in SW.
  assert (FO : first_octet n c = Z.lor (256 - 2 ^ (8 - n)) q).
  { unfold first_octet. rewrite EK. fold q. rewrite Z.mod_small by (clear - Hq; lia). reflexivity. }
  rewrite <- FO in B, SW. specialize (SW LT). set (b := first_octet n c) in *. clearbody b. clear FO.
  assert (AN : 2 <= announced_len b <= 7) by (clear - B LT; unfold announced_len; zcases; lia). set (a := announced_len b) in *. clearbody a.
  split; [assumption|].
  set (t := conts c (Z.to_nat (n - 1)) ++ repeat 0 (Z.to_nat (7 - n))).
  assert (LT6 : length t = 6%nat) by (unfold t; rewrite app_length, conts_length, repeat_length; clear - Hn; lia).
  assert (ZL : zlen (firstn (Z.to_nat (a - 1)) t) = a - 1) by (unfold zlen; rewrite firstn_length; clear - LT6 AN; lia).
  intros V. set (P := b mod 2 ^ (7 - a)) in *.
  assert (PB : 0 <= P < 2 ^ (7 - a)) by (apply Z.mod_pos_bound, Z.pow_pos_nonneg; clear - AN; lia).
  clearbody P. clear EK.
  destruct (Z.le_gt_cases a n) as [LE|GT].
  - pose proof (fold_bound (firstn (Z.to_nat (a - 1)) t) P (proj1 PB)) as FB. rewrite V, ZL in FB.
    assert (UB : (P + 1) * 64 ^ (a - 1) <= 2 ^ (7 - a) * 64 ^ (a - 1)).
    { apply Z.mul_le_mono_nonneg_r; [apply Z.pow_nonneg; clear; lia|clear - PB; lia]. }
    assert (Da : a = 2 \/ a = 3 \/ a = 4 \/ a = 5) by (clear - AN LE Hn; lia).
    assert (X : c < 2 ^ (7 - a) * 64 ^ (a - 1)) by (clear - UB FB; lia). clear UB FB.
    destruct Da as [Ea|[Ea|[Ea|Ea]]]; rewrite Ea in X; [change (2 ^ (7 - 2) * 64 ^ (2 - 1)) with 2048 in X|change (2 ^ (7 - 3) * 64 ^ (3 - 1)) with 65536 in X|
      change (2 ^ (7 - 4) * 64 ^ (4 - 1)) with 2097152 in X|change (2 ^ (7 - 5) * 64 ^ (5 - 1)) with 67108864 in X]; clear - X LE Ea N N1 N2 N3 N4 N5 Hn Hc; lia.
  - destruct SW as [SW|SW]; [clear - SW GT; lia|].
    assert (FT : firstn (Z.to_nat (a - 1)) t = conts c (Z.to_nat (n - 1)) ++ repeat 0 (Z.to_nat (a - n))).
    { clear - Hn AN GT. unfold t. rewrite firstn_app, conts_length, firstn_all2 by (rewrite conts_length; lia).
      f_equal. replace (Z.to_nat (7 - n)) with (Z.to_nat (a - n) + Z.to_nat (7 - a))%nat by lia. rewrite repeat_app, firstn_app, repeat_length.
      replace (Z.to_nat (a - 1) - Z.to_nat (n - 1) - Z.to_nat (a - n))%nat with 0%nat by lia. rewrite app_nil_r. apply firstn_all2. rewrite repeat_length. lia. }
    rewrite FT, fold_left_app, fold_conts, fold_zeros in V. rewrite !Z2Nat.id in V by (clear - Hn GT; lia). fold K in V.
    pose proof (Z.div_mod c K ltac:(clear - KP; lia)) as DM. fold q in DM. pose proof (Z.mod_pos_bound c K KP) as RB. set (r := c mod K) in *.
    assert (ME : 64 ^ (a - n) = 64 \/ 64 ^ (a - n) = 4096 \/ 64 ^ (a - n) = 262144 \/ 64 ^ (a - n) = 16777216 \/ 64 ^ (a - n) = 1073741824).
    { assert (Da : a - n = 1 \/ a - n = 2 \/ a - n = 3 \/ a - n = 4 \/ a - n = 5) by (clear - AN Hn GT; lia). clear - Da. destruct Da as [->|[->|[->|[->| ->]]]]; auto. }
    apply SW. apply (no_coincidence K _ P q r); [clear - KE; tauto|exact ME|exact RB|clear - V DM; lia].
Qed.
Lemma encode_one_loose c l : codepoint31 c -> utf8_encode_one c = Ok l -> loose l /\ (sequence_value l = c <-> sized_ok c).
Proof.
  intros Hc E. assert (D : sized_ok c \/ ~ sized_ok c) by (unfold sized_ok; lia). destruct D as [D|N].
  { rewrite (encode_one_sized_ok c D) in E. injection E as <-. destruct (encode_sequence c Hc) as [[(h & t & EQ & C & T & L) U] V].
    split; [|tauto]. exists h, t. auto. }
  unfold codepoint31 in Hc. change (2 ^ 31) with 2147483648 in Hc.
  destruct (Z.eq_dec c 0) as [->|Hc0]; [vm_compute in E; discriminate|].
  destruct (encoded_size_ranges c ltac:(lia)) as (n & ES & N1 & N2 & N3 & N4 & N5).
  assert (Hn : 2 <= n <= 5) by (unfold sized_ok in N; clear - N Hc Hc0 N1 N2 N3 N4 N5; lia).
  assert (S : 128 <= c) by (unfold sized_ok in N; clear - N Hc Hc0; lia). clear N1 N2 N3 N4 N5.
  rewrite (encode_one_multi c n ES Hn) in E by lia.
  destruct (Z.ltb_spec (first_octet n c) 254) as [LT|]; [|discriminate]. injection E as E. unfold code_octets in E.
  destruct (wrong_value c n ES (conj S (proj2 Hc)) N ltac:(clear - LT; lia)) as (_ & _ & W).
  destruct (first_octet_eq n c Hn (proj1 Hc)) as (_ & B & B1). unfold is_byte in B.
  set (b := first_octet n c) in *. clearbody b.
  assert (AN : 2 <= announced_len b <= 6) by (clear - B B1 LT; unfold announced_len; zcases; lia). set (a := announced_len b) in *.
  set (t := conts c (Z.to_nat (n - 1)) ++ repeat 0 (Z.to_nat (6 - n))) in *.
  assert (EL : l = b :: firstn (Z.to_nat (a - 1)) t).
  { subst l. replace (Z.to_nat a) with (Datatypes.S (Z.to_nat (a - 1))) by (clear - AN; lia). reflexivity. }
  assert (LT5 : length t = 5%nat) by (unfold t; rewrite app_length, conts_length, repeat_length; clear - Hn; lia).
  assert (ZL : zlen (firstn (Z.to_nat (a - 1)) t) = a - 1) by (unfold zlen; rewrite firstn_length; clear - LT5 AN; lia).
  assert (ET : conts c (Z.to_nat (n - 1)) ++ repeat 0 (Z.to_nat (7 - n)) = t ++ [0]).
  { unfold t. rewrite <- app_assoc. f_equal. replace (Z.to_nat (7 - n)) with (Z.to_nat (6 - n) + 1)%nat by (clear - Hn; lia). apply repeat_app. }
  rewrite ET, firstn_app in W. replace (Z.to_nat (a - 1) - length t)%nat with 0%nat in W by (clear - AN LT5; lia). cbn [firstn] in W. rewrite app_nil_r in W.
  clear E. subst l. split.
  { exists b, (firstn (Z.to_nat (a - 1)) t). split; [reflexivity|]. split; [clear - B1; unfold continuation_octet; lia|].
    split; [|rewrite zlen_cons; fold a; clear - ZL; lia].
    constructor; [clear - B1 LT; unfold octet_upto_FD; lia|]. apply Forall_firstn. apply Forall_app. split; [apply conts_upto|].
    apply Forall_forall. intros x I. apply repeat_spec in I. subst x. unfold octet_upto_FD. lia. }
  split; [|tauto]. intros V. exfalso. cbn [sequence_value] in V. fold a in V.
  destruct (Z.ltb_spec b 128); [lia|]. exact (W V).
Qed.
