(** * Proofs: encoding codepoints through the mutable iterator *)
From Verif Require Import Prelude Utf8Model TextModel Utf8Spec Utf8Proofs LawfulProofs IterProofs ByteProofs BoundsProofs.
Require Import ZifyBool ZifyNat.

(** ** encoded_size *)
Lemma log2_range c : 1 <= c < 2147483648 -> 0 <= Z.log2 c <= 30.
Proof.
  intros H. split; [apply Z.log2_nonneg|].
  assert (Z.log2 c < 31); [|lia]. apply Z.log2_lt_pow2; [lia|]. change (2 ^ 31) with 2147483648. lia.
Qed.
Lemma encoded_size_spec c : 1 <= c < 2147483648 -> encoded_size c = Ok ((Z.log2 c + 5) / 6).
Proof.
  intros H. pose proof (log2_range c H) as L. unfold encoded_size, builtin_clz, to_u32.
  rewrite Z.mod_small by lia. destruct (Z.eqb_spec c 0); [lia|]. cbn [bind].
  replace (32 - (31 - Z.log2 c) - 1) with (Z.log2 c) by lia.
  generalize dependent (Z.log2 c). clear. intros l L.
  apply res_eqb_eq.
  assert (E := byte_sweep (fun l => if l <=? 30 then res_eqb (int_of_ceil (float_div (float_of_int l) (float_of_int 6))) (Ok ((l + 5) / 6)) else true)
    ltac:(vm_compute; reflexivity) l ltac:(unfold is_byte; lia)).
  cbv beta in E. destruct (Z.leb_spec l 30); [exact E|lia].
Qed.

Lemma log2_between c a b : 2 ^ a <= c < 2 ^ b -> 0 <= a -> 0 <= b -> a <= Z.log2 c < b.
Proof.
  intros H Ha Hb. assert (0 < 2 ^ a) by (apply Z.pow_pos_nonneg; lia). split.
  - apply Z.log2_le_pow2; lia.
  - apply Z.log2_lt_pow2; lia.
Qed.
Lemma encoded_size_ranges c : 1 <= c < 2147483648 -> exists n, encoded_size c = Ok n /\
  (c < 128 -> n <= 1) /\ (128 <= c < 8192 -> n = 2) /\ (8192 <= c < 524288 -> n = 3) /\
  (524288 <= c < 33554432 -> n = 4) /\ (33554432 <= c -> n = 5).
Proof.
  intros H. exists ((Z.log2 c + 5) / 6). split; [apply encoded_size_spec; assumption|].
  repeat split; intros R.
  - pose proof (log2_between c 0 7 ltac:(change (2 ^ 0) with 1; change (2 ^ 7) with 128; lia) ltac:(lia) ltac:(lia)).
    Z.div_mod_to_equations; lia.
  - pose proof (log2_between c 7 13 ltac:(change (2 ^ 7) with 128; change (2 ^ 13) with 8192; lia) ltac:(lia) ltac:(lia)).
    Z.div_mod_to_equations; lia.
  - pose proof (log2_between c 13 19 ltac:(change (2 ^ 13) with 8192; change (2 ^ 19) with 524288; lia) ltac:(lia) ltac:(lia)).
    Z.div_mod_to_equations; lia.
  - pose proof (log2_between c 19 25 ltac:(change (2 ^ 19) with 524288; change (2 ^ 25) with 33554432; lia) ltac:(lia) ltac:(lia)).
    Z.div_mod_to_equations; lia.
  - pose proof (log2_between c 25 31 ltac:(change (2 ^ 25) with 33554432; change (2 ^ 31) with 2147483648; lia) ltac:(lia) ltac:(lia)).
    Z.div_mod_to_equations; lia.
Qed.

(** ** Writing one codepoint *)

(** The last [n] octets of an encoding. *)
Fixpoint conts (c : Z) (n : nat) : list Z :=
  match n with O => [] | S n' => cont c (6 * Z.of_nat n') :: conts c n' end.
Lemma conts_length c n : length (conts c n) = n.
Proof. induction n; cbn; lia. Qed.
Lemma cont_is_continuation c k : continuation_octet (cont c k).
Proof. unfold cont, continuation_octet. pose proof (Z.mod_pos_bound (c / 2 ^ k) 64 ltac:(lia)). lia. Qed.
Lemma conts_cont c n : Forall continuation_octet (conts c n).
Proof. induction n; cbn; constructor; [apply cont_is_continuation|assumption]. Qed.

(** The first octet the code writes when it has decided on [n] octets. *)
Definition first_octet (n c : Z) : Z := Z.lor (256 - 2 ^ (8 - n)) ((c / 2 ^ (6 * (n - 1))) mod 256).

Lemma wr_app A x B v : wr (A ++ x :: B) (zlen A) v = Ok (A ++ v :: B).
Proof.
  unfold wr. destruct (Z.leb_spec 0 (zlen A)); [|zl].
  destruct (Z.ltb_spec (zlen A) (zlen (A ++ x :: B))); [|zl]. cbn [andb]. f_equal.
  unfold zlen. rewrite Nat2Z.id. clear. induction A as [|a A IH]; [reflexivity|].
  cbn [length app upd]. f_equal. exact IH.
Qed.
Lemma cont_octet c k : 0 <= k -> to_u8 (Z.lor 128 (Z.land (Z.shiftr c (k * 6)) 63)) = cont c (6 * k).
Proof.
  intros Hk. rewrite Z.shiftr_div_pow2 by lia. change 63 with (Z.ones 6). rewrite Z.land_ones by lia.
  unfold cont. replace (k * 6) with (6 * k) by lia. change (2 ^ 6) with 64.
  pose proof (Z.mod_pos_bound (c / 2 ^ (6 * k)) 64 ltac:(lia)) as R.
  generalize dependent ((c / 2 ^ (6 * k)) mod 64). clear. intros r R.
  assert (E := byte_sweep (fun r => if r <? 64 then to_u8 (Z.lor 128 r) =? 128 + r else true)
    ltac:(vm_compute; reflexivity) r ltac:(unfold is_byte; lia)).
  cbv beta in E. destruct (Z.ltb_spec r 64); lia.
Qed.
Lemma assign_loop_spec c : forall n A x old B, length old = n ->
  assign_loop n (A ++ x :: old ++ B) (zlen A) c
  = Ok (A ++ x :: conts c n ++ B, zlen A + Z.of_nat n).
Proof.
  induction n as [|n IH]; intros A x old B L.
  - destruct old; [|discriminate]. cbn. rewrite Z.add_0_r. reflexivity.
  - destruct old as [|y old]; [discriminate|]. cbn [assign_loop].
    rewrite cont_octet by lia.
    rewrite padd_ok by zl. cbn [bind].
    replace (A ++ x :: (y :: old) ++ B) with ((A ++ [x]) ++ y :: old ++ B) by (rewrite <- app_assoc; reflexivity).
    replace (zlen A + 1) with (zlen (A ++ [x])) by zl.
    rewrite wr_app. cbn [bind]. rewrite IH by (cbn in L; lia). f_equal. f_equal.
    + cbn [conts]. rewrite <- app_assoc. reflexivity.
    + zl.
Qed.
Lemma first_octet_eq n c : 2 <= n <= 5 -> 0 <= c ->
  to_u8 (Z.lor (to_u8 (Z.shiftl 255 (8 - n))) (Z.land (Z.shiftr c ((n - 1) * 6)) 255)) = first_octet n c
  /\ is_byte (first_octet n c) /\ 192 <= first_octet n c.
Proof.
  intros Hn Hc. unfold first_octet. rewrite Z.shiftr_div_pow2 by lia.
  change 255 with (Z.ones 8) at 2. rewrite Z.land_ones by lia. change (2 ^ 8) with 256.
  replace ((n - 1) * 6) with (6 * (n - 1)) by lia.
  pose proof (Z.mod_pos_bound (c / 2 ^ (6 * (n - 1))) 256 ltac:(lia)) as R.
  generalize dependent ((c / 2 ^ (6 * (n - 1))) mod 256). clear c Hc. intros r R.
  assert (E := byte_sweep (fun r => forallb (fun n =>
      let f := Z.lor (256 - 2 ^ (8 - n)) r in
      (to_u8 (Z.lor (to_u8 (Z.shiftl 255 (8 - n))) r) =? f) && (0 <=? f) && (f <? 256) && (192 <=? f)) [2;3;4;5])
    ltac:(vm_compute; reflexivity) r ltac:(unfold is_byte; lia)).
  cbv beta zeta in E. rewrite forallb_forall in E. specialize (E n). unfold is_byte.
  assert (I : In n [2;3;4;5]) by (cbn; lia). specialize (E I). lia.
Qed.

(** Raw effect of an assignment. *)
Lemma proxy_assign_ascii A x B c : 1 <= c < 128 ->
  proxy_assign (A ++ x :: B) (zlen A) c = Ok (A ++ c :: B, zlen A).
Proof.
  intros Hc. unfold proxy_assign. destruct (encoded_size_ranges c ltac:(lia)) as (n & -> & N1 & _).
  cbn [bind]. specialize (N1 ltac:(lia)). destruct (Z.leb_spec n 1); [|lia].
  rewrite wr_app. cbn [bind]. do 4 f_equal. 
  change 255 with (Z.ones 8). rewrite Z.land_ones by lia. apply Z.mod_small. change (2 ^ 8) with 256. lia.
Qed.
Lemma proxy_assign_multi A x old B c n : encoded_size c = Ok n -> 2 <= n <= 5 -> 0 <= c ->
  zlen old = n - 1 ->
  proxy_assign (A ++ x :: old ++ B) (zlen A) c
  = Ok (A ++ first_octet n c :: conts c (Z.to_nat (n - 1)) ++ B, zlen A + (n - 1)).
Proof.
  intros E Hn Hc L. unfold proxy_assign. rewrite E. cbn [bind].
  destruct (Z.leb_spec n 1); [lia|].
  destruct (first_octet_eq n c Hn Hc) as (-> & _).
  rewrite wr_app. cbn [bind]. rewrite assign_loop_spec by zl. f_equal. f_equal. lia.
Qed.

(** ** Codepoints whose size is computed correctly *)
Definition sized_ok (c : Z) : Prop :=
  1 <= c <= 0x7FF \/ 0x2000 <= c <= 0xFFFF \/ 0x80000 <= c <= 0x1FFFFF \/
  0x2000000 <= c <= 0x3FFFFFF.
Lemma sized_ok_31 c : sized_ok c -> codepoint31 c.
Proof. unfold sized_ok, codepoint31. lia. Qed.

Lemma lor_disjoint n : forall q, 2 <= n <= 5 -> 0 <= q < 2 ^ (7 - n) -> Z.lor (256 - 2 ^ (8 - n)) q = 256 - 2 ^ (8 - n) + q.
Proof.
  intros q Hn Hq.
  assert (B : q < 256).
  { assert (2 ^ (7 - n) <= 2 ^ 8) by (apply Z.pow_le_mono_r; lia). change (2 ^ 8) with 256 in *. lia. }
  assert (E := byte_sweep (fun q => forallb (fun n =>
      if q <? 2 ^ (7 - n) then Z.lor (256 - 2 ^ (8 - n)) q =? 256 - 2 ^ (8 - n) + q else true) [2;3;4;5])
    ltac:(vm_compute; reflexivity) q ltac:(unfold is_byte; lia)).
  cbv beta in E. rewrite forallb_forall in E. specialize (E n ltac:(cbn; lia)). cbv beta in E.
  destruct (Z.ltb_spec q (2 ^ (7 - n))); lia.
Qed.
Lemma first_octet_small n c : 2 <= n <= 5 -> 0 <= c < 2 ^ (5 * n + 1) ->
  first_octet n c = 256 - 2 ^ (8 - n) + c / 2 ^ (6 * (n - 1)).
Proof.
  intros Hn Hc. unfold first_octet.
  assert (P : 0 < 2 ^ (6 * (n - 1))) by (apply Z.pow_pos_nonneg; lia).
  assert (Q : 0 <= c / 2 ^ (6 * (n - 1)) < 2 ^ (7 - n)).
  { split; [apply Z.div_pos; lia|]. apply Z.div_lt_upper_bound; [assumption|].
    rewrite <- Z.pow_add_r by lia. replace (6 * (n - 1) + (7 - n)) with (5 * n + 1) by lia. lia. }
  rewrite Z.mod_small.
  - apply lor_disjoint; assumption.
  - assert (2 ^ (7 - n) <= 2 ^ 8) by (apply Z.pow_le_mono_r; lia). change (2 ^ 8) with 256 in *. lia.
Qed.

Lemma sized_ok_encoding c : sized_ok c -> 128 <= c ->
  exists n, encoded_size c = Ok n /\ 2 <= n <= 5 /\
    utf8_encode c = first_octet n c :: conts c (Z.to_nat (n - 1)).
Proof.
  intros H H128. destruct (encoded_size_ranges c ltac:(unfold sized_ok in H; lia)) as (n & E & N1 & N2 & N3 & N4 & N5).
  exists n. split; [assumption|]. unfold sized_ok in H.
  assert (D : n = 2 \/ n = 3 \/ n = 4 \/ n = 5) by lia. split; [lia|].
  destruct D as [-> |[-> |[-> | ->]]]; rewrite first_octet_small by
    (first [lia | change (2 ^ (5 * 2 + 1)) with 2048; change (2 ^ (5 * 3 + 1)) with 65536;
            change (2 ^ (5 * 4 + 1)) with 2097152; change (2 ^ (5 * 5 + 1)) with 67108864; lia]);
    unfold utf8_encode; zcases; try lia; reflexivity.
Qed.

Theorem proxy_assign_sized_ok A old B c : sized_ok c -> zlen old = zlen (utf8_encode c) ->
  proxy_assign (A ++ old ++ B) (zlen A) c
  = Ok (A ++ utf8_encode c ++ B, zlen A + zlen (utf8_encode c) - 1).
Proof.
  intros H L. destruct (Z.ltb_spec c 128).
  - assert (EN : utf8_encode c = [c]) by (unfold utf8_encode; zcases; try lia; reflexivity).
    rewrite EN in *. destruct old as [|x [|y old]]; try (cbn in L; discriminate); [|zl].
    cbn [app]. rewrite proxy_assign_ascii by (unfold sized_ok in H; lia). f_equal. f_equal. zl.
  - destruct (sized_ok_encoding c H ltac:(lia)) as (n & E & Hn & EN).
    rewrite EN in *. destruct old as [|x old]; [zl|]. rewrite zlen_cons in L.
    assert (LC : zlen (conts c (Z.to_nat (n - 1))) = n - 1) by (unfold zlen; rewrite conts_length; lia).
    cbn [app]. rewrite (proxy_assign_multi A x old B c n E Hn) by (unfold sized_ok in H; rewrite ?zlen_cons in L; lia).
    f_equal. f_equal. rewrite zlen_cons. lia.
Qed.

(** ** utf8::append_from_utf32ne *)
Lemma zero_buffer_read : proxy_read [0;0;0;0;0;0] 0 = Ok 0.
Proof. vm_compute. reflexivity. Qed.

(** The octets the code leaves in its buffer, and how many it appends. *)
Definition code_octets (n c : Z) : list Z :=
  first_octet n c :: conts c (Z.to_nat (n - 1)) ++ repeat 0 (Z.to_nat (6 - n)).

Lemma encode_one_multi c n : encoded_size c = Ok n -> 2 <= n <= 5 -> 0 <= c ->
  utf8_encode_one c =
    if first_octet n c <? 254
    then Ok (firstn (Z.to_nat (announced_len (first_octet n c))) (code_octets n c))
    else UB BadPointer.
Proof.
  intros E Hn Hc. unfold utf8_encode_one, it_assign. rewrite zero_buffer_read. cbn [bind].
  replace [0;0;0;0;0;0] with ([] ++ 0 :: repeat 0 (Z.to_nat (n - 1)) ++ repeat 0 (Z.to_nat (6 - n))).
  2: { cbn [app]. rewrite <- repeat_app. replace (Z.to_nat (n - 1) + Z.to_nat (6 - n))%nat with 5%nat by lia. reflexivity. }
  assert (LR : zlen (repeat 0 (Z.to_nat (n - 1))) = n - 1) by (unfold zlen; rewrite repeat_length; lia).
  pose proof (proxy_assign_multi [] 0 _ (repeat 0 (Z.to_nat (6 - n))) c n E Hn Hc LR) as PA.
  change (zlen []) with 0 in PA. rewrite PA. cbn [bind]. clear PA.
  destruct (first_octet_eq n c Hn Hc) as (_ & FB & F192).
  unfold it_preinc, forward_one_codepoint.
  pose proof (rewind_chunk [] (first_octet n c) (conts c (Z.to_nat (n - 1))) (repeat 0 (Z.to_nat (6 - n))) (n - 1) FB) as RW.
  change (zlen []) with 0 in RW. rewrite RW; clear RW.
  2: { unfold is_cont. lia. }
  2: { apply conts_cont. }
  2: { unfold zlen. rewrite conts_length. lia. }
  cbn [bind app]. rewrite (rd_at _ [] (first_octet n c) (conts c (Z.to_nat (n - 1)) ++ repeat 0 (Z.to_nat (6 - n)))) by reflexivity.
  cbn [bind]. rewrite codepoint_size_spec by assumption. cbn [bind].
  assert (LL : zlen (code_octets n c) = 6).
  { unfold code_octets, zlen. cbn [length]. rewrite app_length, conts_length, repeat_length. lia. }
  fold (code_octets n c). unfold padd. rewrite LL. rewrite Z.add_0_l.
  pose proof (announced_len_range (first_octet n c)) as AR.
  destruct (Z.ltb_spec (first_octet n c) 254) as [S|S].
  - assert (announced_len (first_octet n c) <= 6) by (unfold announced_len; zcases; lia).
    replace ((0 <=? announced_len (first_octet n c)) && (announced_len (first_octet n c) <=? 6)) with true by lia.
    cbn [bind]. unfold copy_range. rewrite LL.
    replace ((0 <=? 0) && (0 <=? announced_len (first_octet n c)) && (announced_len (first_octet n c) <=? 6)) with true by lia.
    unfold slice. rewrite Z.sub_0_r. reflexivity.
  - assert (7 <= announced_len (first_octet n c)) by (unfold is_byte in FB; unfold announced_len; zcases; lia).
    replace ((0 <=? announced_len (first_octet n c)) && (announced_len (first_octet n c) <=? 6)) with false by lia.
    reflexivity.
Qed.
Lemma encode_one_ascii c : 1 <= c < 128 -> utf8_encode_one c = Ok [c].
Proof.
  intros Hc. unfold utf8_encode_one, it_assign. rewrite zero_buffer_read. cbn [bind].
  pose proof (proxy_assign_ascii [] 0 [0;0;0;0;0] c Hc) as PA. change (zlen []) with 0 in PA.
  cbn [app] in PA. rewrite PA. cbn [bind]. unfold it_preinc.
  pose proof (forward_chunk [] c [] [0;0;0;0;0] 0) as FC. change (zlen []) with 0 in FC.
  cbn [app] in FC. change (0 + 0) with 0 in FC. rewrite FC; [reflexivity| |zl].
  constructor; [unfold is_byte; lia|unfold is_cont; lia|lia|constructor|unfold announced_len; zcases; zl].
Qed.

Lemma encode_one_sized_ok c : sized_ok c -> utf8_encode_one c = Ok (utf8_encode c).
Proof.
  intros H. destruct (Z.ltb_spec c 128).
  - rewrite encode_one_ascii by (unfold sized_ok in H; lia). unfold utf8_encode. zcases; try lia; reflexivity.
  - destruct (sized_ok_encoding c H ltac:(lia)) as (n & E & Hn & EN).
    rewrite (encode_one_multi c n E Hn) by lia.
    destruct (utf8_encode_chunk c (sized_ok_31 c H)) as (l & t & EC & C & _).
    rewrite EN in EC. injection EC as <- <-. destruct C as [C1 C2 C3 C4 C5].
    destruct (Z.ltb_spec (first_octet n c) 254); [|lia].
    f_equal. rewrite <- C5, EN. unfold zlen. rewrite conts_length. unfold code_octets.
    replace (Z.to_nat (1 + Z.of_nat (Z.to_nat (n - 1)))) with (S (Z.to_nat (n - 1))) by lia.
    cbn [firstn]. f_equal. rewrite firstn_app, conts_length, Nat.sub_diag.
    rewrite <- (conts_length c (Z.to_nat (n - 1))) at 1. rewrite firstn_all. apply app_nil_r.
Qed.

Lemma encode_last c n : codepoint31 c -> (1 <= n < length (utf8_encode c))%nat ->
  128 <= nth n (utf8_encode c) 0.
Proof.
  intros Hc Hn. destruct (utf8_encode_chunk c Hc) as (l & t & E & C & _). rewrite E in *.
  destruct n as [|n]; [lia|]. cbn [nth length] in *.
  pose proof (ch_tail _ _ C) as T. rewrite Forall_forall in T.
  specialize (T (nth n t 0) ltac:(apply nth_In; lia)). unfold continuation_octet in T. lia.
Qed.
Lemma encode_one_wrong c l : codepoint31 c -> ~ sized_ok c -> utf8_encode_one c = Ok l -> l <> utf8_encode c.
Proof.
  unfold codepoint31. change (2 ^ 31) with 2147483648. intros Hc N E EL. subst l.
  destruct (Z.eq_dec c 0) as [->|Hc0]; [vm_compute in E; discriminate|].
  destruct (encoded_size_ranges c ltac:(lia)) as (n & ES & N1 & N2 & N3 & N4 & N5).
  unfold sized_ok in N.
  assert (Hn : 2 <= n <= 5) by lia.
  rewrite (encode_one_multi c n ES Hn) in E by lia.
  destruct (Z.ltb_spec (first_octet n c) 254); [|discriminate].
  injection E as E.
  assert (LE : Z.of_nat (length (utf8_encode c)) = n + 1) by (unfold utf8_encode; zcases; cbn [length]; lia).
  pose proof (encode_last c (Z.to_nat n) ltac:(unfold codepoint31; lia) ltac:(lia)) as B.
  rewrite <- E in B.
  assert (Z0 : nth (Z.to_nat n) (code_octets n c) 0 = 0).
  { unfold code_octets. replace (Z.to_nat n) with (S (Z.to_nat (n - 1))) by lia. cbn [nth].
    rewrite app_nth2 by (rewrite conts_length; lia). rewrite conts_length, Nat.sub_diag.
    replace (S (Z.to_nat (n - 1))) with (Z.to_nat n) by lia.
    destruct (Z.to_nat (6 - n)); reflexivity. }
  assert (NF : nth (Z.to_nat n) (firstn (Z.to_nat (announced_len (first_octet n c))) (code_octets n c)) 0 = 0).
  { destruct (Nat.lt_ge_cases (Z.to_nat n) (Z.to_nat (announced_len (first_octet n c)))) as [L|L].
    - rewrite <- Z0.
      destruct (nth_error (code_octets n c) (Z.to_nat n)) as [v|] eqn:NE.
      + rewrite (nth_error_nth _ _ 0 NE). apply nth_error_nth. rewrite nth_error_firstn by assumption. assumption.
      + apply nth_error_None in NE. rewrite (nth_overflow (code_octets n c)) by assumption.
        apply nth_overflow. rewrite firstn_length. lia.
    - apply nth_overflow. rewrite firstn_length. lia. }
  lia.
Qed.

(** C19, exact domain *)
Lemma encode_one_iff c : codepoint31 c ->
  (utf8_encode_one c = Ok (utf8_encode c) <-> sized_ok c).
Proof.
  intros Hc. split.
  - intros E. assert (D : sized_ok c \/ ~ sized_ok c) by (unfold sized_ok; lia).
    destruct D as [D|D]; [assumption|]. exfalso. exact (encode_one_wrong c _ Hc D E eq_refl).
  - apply encode_one_sized_ok.
Qed.

Lemma append_from_utf32ne_ok cs : forall out, Forall sized_ok cs ->
  utf8_append_from_utf32ne out cs = Ok (out ++ utf8_text cs).
Proof.
  induction cs as [|c cs IH]; intros out F.
  - cbn. rewrite app_nil_r. reflexivity.
  - inversion F as [|? ? Hc Hcs]; subst. cbn [utf8_append_from_utf32ne].
    rewrite encode_one_sized_ok by assumption. cbn [bind]. rewrite IH by assumption.
    change (utf8_text (c :: cs)) with (utf8_encode c ++ utf8_text cs). rewrite app_assoc. reflexivity.
Qed.

(** C20, exact domain *)
Definition overruns (c : Z) : Prop :=
  (0x800 <= c <= 0x1FFF /\ 62 <= (c / 64) mod 64) \/
  (0x10000 <= c <= 0x7FFFF /\ 30 <= (c / 4096) mod 32).
Lemma lor_254 n x : 2 <= n <= 4 -> 0 <= x < 256 ->
  (254 <= Z.lor (256 - 2 ^ (8 - n)) x <-> 2 ^ (8 - n) - 2 <= x mod 2 ^ (8 - n)).
Proof.
  intros Hn Hx.
  assert (E := byte_sweep (fun x => forallb (fun n =>
      eqb (254 <=? Z.lor (256 - 2 ^ (8 - n)) x) (2 ^ (8 - n) - 2 <=? x mod 2 ^ (8 - n))) [2;3;4])
    ltac:(vm_compute; reflexivity) x ltac:(unfold is_byte; lia)).
  cbv beta in E. rewrite forallb_forall in E. specialize (E n ltac:(cbn; lia)). cbv beta in E.
  apply eqb_prop in E. lia.
Qed.
Lemma encode_one_defined_iff c : 0 <= c <= 0x10FFFF ->
  ((exists l, utf8_encode_one c = Ok l) <-> c <> 0 /\ ~ overruns c) /\
  (utf8_encode_one c = UB ClzZero <-> c = 0) /\
  (utf8_encode_one c = UB BadPointer <-> overruns c).
Proof.
  intros Hc.
  destruct (Z.eq_dec c 0) as [->|Hc0].
  { assert (E : utf8_encode_one 0 = UB ClzZero) by (vm_compute; reflexivity). rewrite E.
    unfold overruns. split; [|split]; split; intros H; try lia; try discriminate; try reflexivity.
    - destruct H; discriminate. }
  destruct (Z.ltb_spec c 128).
  { rewrite encode_one_ascii by lia. unfold overruns.
    split; [|split]; split; intros H1; try lia; try discriminate. eauto. }
  destruct (encoded_size_ranges c ltac:(lia)) as (n & ES & N1 & N2 & N3 & N4 & N5).
  assert (Hn : 2 <= n <= 4) by lia.
  rewrite (encode_one_multi c n ES) by lia.
  assert (K : 254 <= first_octet n c <-> overruns c).
  { unfold first_octet. rewrite lor_254; [|assumption|apply Z.mod_pos_bound; lia]. unfold overruns.
    assert (D : n = 2 \/ n = 3 \/ n = 4) by lia.
    destruct D as [-> |[-> | ->]].
    - change (2 ^ (8 - 2)) with 64. change (2 ^ (6 * (2 - 1))) with 64.
      rewrite <- (Znumtheory.Zmod_div_mod 64 256) by (try lia; exists 4; reflexivity). split; intros X; Z.div_mod_to_equations; lia.
    - change (2 ^ (8 - 3)) with 32. change (2 ^ (6 * (3 - 1))) with 4096.
      rewrite <- (Znumtheory.Zmod_div_mod 32 256) by (try lia; exists 8; reflexivity). split; intros X; Z.div_mod_to_equations; lia.
    - change (2 ^ (8 - 4)) with 16. change (2 ^ (6 * (4 - 1))) with 262144. split; intros X; Z.div_mod_to_equations; lia. }
  destruct (Z.ltb_spec (first_octet n c) 254) as [S|S].
  - assert (NO : ~ overruns c) by (intros O; apply K in O; lia).
    split; [|split].
    + split; [intros _; split; assumption|intros _; eexists; reflexivity].
    + split; [intros X; discriminate|intros X; contradiction].
    + split; [intros X; discriminate|intros X; contradiction].
  - assert (O : overruns c) by (apply K; lia).
    split; [|split].
    + split; [intros (l & X); discriminate|intros (_ & X); contradiction].
    + split; [intros X; discriminate|intros X; contradiction].
    + split; [intros _; assumption|intros _; reflexivity].
Qed.

(** C21 *)
Lemma encode_round_trip cs fuel : Forall sized_ok cs -> (length cs < fuel)%nat ->
  exists s, utf8_append_from_utf32ne [] cs = Ok s /\
    iterate_codepoints fuel (utf8_ops (string_buffer s)) 0 (zlen s) = Ok cs.
Proof.
  intros F Hf. exists (utf8_text cs). split; [apply (append_from_utf32ne_ok cs []); assumption|].
  apply forward_string; [|assumption]. eapply Forall_impl; [|exact F]. apply sized_ok_31.
Qed.

(** C22 *)
Definition ascii (b : Z) : Prop := 0 <= b < 128.
Lemma read_ascii A x B : ascii x -> proxy_read (A ++ x :: B) (zlen A) = Ok x.
Proof.
  intros H. unfold ascii in H. unfold proxy_read.
  assert (C : chunk x []).
  { constructor; [unfold is_byte; lia|unfold is_cont; lia|lia|constructor|unfold announced_len; zcases; zl]. }
  pose proof (deref_chunk A x [] B 0 C ltac:(zl)) as D. cbn [app] in D. rewrite Z.add_0_r in D. rewrite D.
  cbn [bind]. unfold chunk_value, lead_bits. cbn [fold_left]. zcases; [reflexivity|lia].
Qed.
Lemma write_one A old B c : sized_ok c -> Forall ascii old -> zlen old = zlen (utf8_encode c) ->
  exists q, it_assign (A ++ old ++ B) (zlen A) c = Ok (A ++ utf8_encode c ++ B, q) /\
    zlen A <= q < zlen A + zlen (utf8_encode c) /\
    it_preinc (A ++ utf8_encode c ++ B) q = Ok (zlen A + zlen (utf8_encode c)) /\
    it_deref (A ++ utf8_encode c ++ B) q = Ok (c, zlen A).
Proof.
  intros H F L. exists (zlen A + zlen (utf8_encode c) - 1).
  destruct (utf8_encode_chunk c (sized_ok_31 c H)) as (l & t & EN & _).
  assert (P : 1 <= zlen (utf8_encode c)) by (rewrite EN; zl).
  pose proof (inside_codepoint A c B (zlen (utf8_encode c) - 1) (sized_ok_31 c H) ltac:(lia)) as (I1 & I2 & _).
  replace (zlen A + (zlen (utf8_encode c) - 1)) with (zlen A + zlen (utf8_encode c) - 1) in * by lia.
  split; [|split; [lia|split; assumption]].
  unfold it_assign. destruct old as [|x old]; [zl|]. inversion F as [|? ? Fx _]; subst.
  cbn [app]. rewrite read_ascii by assumption. cbn [bind].
  change (A ++ x :: old ++ B) with (A ++ (x :: old) ++ B). apply proxy_assign_sized_ok; assumption.
Qed.
Lemma write_text cs : forall A old B, Forall sized_ok cs -> Forall ascii old ->
  zlen old = zlen (utf8_text cs) ->
  write_codepoints (A ++ old ++ B) (zlen A) cs
  = Ok (A ++ utf8_text cs ++ B, zlen A + zlen (utf8_text cs)).
Proof.
  induction cs as [|c cs IH]; intros A old B F FO L.
  - destruct old; [|cbn in L; zl]. cbn. rewrite Z.add_0_r. reflexivity.
  - inversion F as [|? ? Hc Hcs]; subst. change (utf8_text (c :: cs)) with (utf8_encode c ++ utf8_text cs) in *.
    rewrite zlen_app in L.
    set (o1 := firstn (length (utf8_encode c)) old). set (o2 := skipn (length (utf8_encode c)) old).
    assert (EO : old = o1 ++ o2) by (symmetry; apply firstn_skipn).
    assert (L1 : zlen o1 = zlen (utf8_encode c)) by (unfold o1, zlen in *; rewrite firstn_length; lia).
    assert (L2 : zlen o2 = zlen (utf8_text cs)) by (rewrite EO in L; rewrite zlen_app in L; lia).
    rewrite EO in FO. apply Forall_app in FO. destruct FO as [FO1 FO2].
    cbn [write_codepoints]. rewrite EO.
    replace (A ++ (o1 ++ o2) ++ B) with (A ++ o1 ++ (o2 ++ B)) by (rewrite <- !app_assoc; reflexivity).
    destruct (write_one A o1 (o2 ++ B) c Hc FO1 L1) as (q & -> & _ & I & _). cbn [bind].
    rewrite I. cbn [bind].
    replace (A ++ utf8_encode c ++ o2 ++ B) with ((A ++ utf8_encode c) ++ o2 ++ B) by (rewrite <- app_assoc; reflexivity).
    rewrite <- zlen_app. rewrite IH by assumption. f_equal. f_equal.
    + rewrite <- !app_assoc. reflexivity.
    + rewrite !zlen_app. lia.
Qed.
(** C24 *)
Lemma assign_twice_ascii A x old B c d : 1 <= c < 128 -> sized_ok d ->
  ascii x -> zlen (x :: old) = zlen (utf8_encode d) ->
  exists m q, it_assign (A ++ x :: old ++ B) (zlen A) c = Ok (m, q) /\
    it_assign m q d = Ok (A ++ utf8_encode d ++ B, zlen A + zlen (utf8_encode d) - 1).
Proof.
  intros Hc Hd Hx L. exists (A ++ c :: old ++ B), (zlen A). unfold it_assign. split.
  - rewrite read_ascii by assumption. cbn [bind]. apply proxy_assign_ascii. assumption.
  - rewrite read_ascii by (unfold ascii; lia). cbn [bind].
    change (A ++ c :: old ++ B) with (A ++ (c :: old) ++ B). apply proxy_assign_sized_ok; [assumption|].
    rewrite zlen_cons in *. lia.
Qed.

(** ** Statements restricted to Unicode codepoints *)
Definition sized_ok_unicode (c : Z) : Prop :=
  1 <= c <= 0x7FF \/ 0x2000 <= c <= 0xFFFF \/ 0x80000 <= c <= 0x10FFFF.
Lemma sized_ok_of_unicode c : sized_ok_unicode c -> sized_ok c.
Proof. unfold sized_ok_unicode, sized_ok. lia. Qed.
Lemma Forall_sized_ok cs : (forall c, In c cs -> sized_ok_unicode c) -> Forall sized_ok cs.
Proof. intros H. apply Forall_forall. intros c I. apply sized_ok_of_unicode. auto. Qed.
Lemma append_unicode_ok out cs : (forall c, In c cs -> sized_ok_unicode c) ->
  utf8_append_from_utf32ne out cs = Ok (out ++ utf8_text cs).
Proof. intros H. apply append_from_utf32ne_ok. apply Forall_sized_ok. assumption. Qed.
Lemma append_one c : utf8_append_from_utf32ne [] [c] = utf8_encode_one c.
Proof. cbn [utf8_append_from_utf32ne]. destruct (utf8_encode_one c); reflexivity. Qed.
Lemma append_one_iff c : unicode_codepoint c ->
  (utf8_append_from_utf32ne [] [c] = Ok (utf8_text [c]) <-> sized_ok_unicode c).
Proof.
  unfold unicode_codepoint. intros H. rewrite append_one. unfold utf8_text. cbn [flat_map]. rewrite app_nil_r.
  rewrite encode_one_iff by (unfold codepoint31; lia). unfold sized_ok, sized_ok_unicode. lia.
Qed.
Lemma append_one_defined_iff c : unicode_codepoint c ->
  let overrun := (0x800 <= c <= 0x1FFF /\ 62 <= (c / 64) mod 64) \/
                 (0x10000 <= c <= 0x7FFFF /\ 30 <= (c / 4096) mod 32) in
  ((exists l, utf8_append_from_utf32ne [] [c] = Ok l) <-> c <> 0 /\ ~ overrun) /\
  (utf8_append_from_utf32ne [] [c] = UB ClzZero <-> c = 0) /\
  (utf8_append_from_utf32ne [] [c] = UB BadPointer <-> overrun).
Proof. intros H. rewrite append_one. exact (encode_one_defined_iff c H). Qed.
Lemma append_round_trip cs fuel : (forall c, In c cs -> sized_ok_unicode c) -> (length cs < fuel)%nat ->
  exists s, utf8_append_from_utf32ne [] cs = Ok s /\
    iterate_codepoints fuel (utf8_ops (string_buffer s)) 0 (zlen s) = Ok cs.
Proof. intros H. apply encode_round_trip. apply Forall_sized_ok. assumption. Qed.
Lemma Forall_ascii old : (forall b, In b old -> 0 <= b < 128) -> Forall ascii old.
Proof. intros H. apply Forall_forall. exact H. Qed.
Lemma write_text_unicode before old after cs : (forall c, In c cs -> sized_ok_unicode c) ->
  (forall b, In b old -> 0 <= b < 128) -> zlen old = zlen (utf8_text cs) ->
  write_codepoints (before ++ old ++ after) (zlen before) cs
  = Ok (before ++ utf8_text cs ++ after, zlen before + zlen (utf8_text cs)).
Proof. intros H A L. apply write_text; [apply Forall_sized_ok|apply Forall_ascii|]; assumption. Qed.
Lemma write_read_back before old after c : sized_ok_unicode c ->
  (forall b, In b old -> 0 <= b < 128) -> zlen old = zlen (utf8_encode c) ->
  exists mem q, it_assign (before ++ old ++ after) (zlen before) c = Ok (mem, q) /\
    mem = before ++ utf8_encode c ++ after /\
    zlen before <= q < zlen before + zlen (utf8_encode c) /\
    it_deref mem q = Ok (c, zlen before).
Proof.
  intros H A L. destruct (write_one before old after c (sized_ok_of_unicode c H) (Forall_ascii _ A) L) as (q & A1 & A2 & _ & A4).
  exists (before ++ utf8_encode c ++ after), q. repeat split; try assumption; lia.
Qed.
Lemma assign_twice_unicode before x old after c d : 1 <= c < 128 -> sized_ok_unicode d ->
  0 <= x < 128 -> zlen (x :: old) = zlen (utf8_encode d) ->
  exists m q, it_assign (before ++ x :: old ++ after) (zlen before) c = Ok (m, q) /\
    it_assign m q d = Ok (before ++ utf8_encode d ++ after, zlen before + zlen (utf8_encode d) - 1).
Proof. intros Hc Hd Hx L. apply assign_twice_ascii; try assumption. apply sized_ok_of_unicode. assumption. Qed.
