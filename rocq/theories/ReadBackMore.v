(** * Proofs: reading back one assignment, and every [int] given to append_from_utf32ne *)
From Verif Require Import Prelude Utf8Model TextModel Utf8Spec RangeSpec Utf8Proofs LawfulProofs IterProofs ByteProofs EncodeProofs AppendProofs EncodeText SequenceProofs RangeProofs EncodeMore ReadBack.
Require Import ZifyBool ZifyNat.

(** ** A whole text *)
Lemma append_chunks cs : forall out s, utf8_append_from_utf32ne out cs = Ok s ->
  exists os, s = out ++ concat os /\ Forall2 (fun c o => utf8_encode_one c = Ok o) cs os.
Proof.
  induction cs as [|c cs IH]; intros out s E; cbn [utf8_append_from_utf32ne] in E.
  - injection E as <-. exists []. split; [symmetry; apply app_nil_r|constructor].
  - destruct (utf8_encode_one c) as [l| |] eqn:EL; try discriminate. cbn [bind] in E.
    destruct (IH _ _ E) as (os & -> & F). exists (l :: os). split; [cbn [concat]; rewrite app_assoc; reflexivity|]. constructor; assumption.
Qed.
Lemma read_back_text cs s fuel : Forall codepoint31 cs -> utf8_append_from_utf32ne [] cs = Ok s -> (length cs < fuel)%nat ->
  exists vs, iterate_codepoints fuel (utf8_ops (string_buffer s)) 0 (zlen s) = Ok vs /\
    Forall2 (fun c v => v = c <-> sized_ok c) cs vs.
Proof.
  intros F E L. destruct (append_chunks cs [] s E) as (os & ES & F2). cbn [app] in ES.
  assert (X : Forall loose os /\ Forall2 (fun c v => v = c <-> sized_ok c) cs (map sequence_value os) /\ length os = length cs).
  { clear E ES L. revert os F2. induction F as [|c cs Hc F IH]; intros os F2; inversion F2 as [|c' o cs' os' E1 F2' E2 E3].
    - subst. repeat split; constructor.
    - destruct (IH os' F2') as (A & B & C). destruct (encode_one_loose c o Hc E1) as (A1 & B1).
      split; [|split]; [constructor; assumption|cbn [map]; constructor; assumption|cbn [length]; lia]. }
  destruct X as (FL & FV & LL). exists (map sequence_value os). split; [|assumption].
  apply (loose_loops s); [|assumption|assumption|lia].
  subst s. apply Forall_concat. eapply Forall_impl; [|exact FL]. intros o (h & t & _ & _ & U & _). exact U.
Qed.
Lemma Forall2_all_eq {A} (P : A -> Prop) cs vs : Forall2 (fun c v => v = c <-> P c) cs vs -> (vs = cs <-> forall c, In c cs -> P c).
Proof.
  induction 1 as [|c v cs vs H F IH]; [split; [intros _ c []|reflexivity]|]. split.
  - intros E. injection E as E1 E2. intros x [->|I]; [apply H; assumption|apply IH; assumption].
  - intros X. f_equal; [apply H; apply X; left; reflexivity|apply IH; intros; apply X; right; assumption].
Qed.
Lemma read_back_text_iff cs s fuel : Forall codepoint31 cs -> utf8_append_from_utf32ne [] cs = Ok s -> (length cs < fuel)%nat ->
  (iterate_codepoints fuel (utf8_ops (string_buffer s)) 0 (zlen s) = Ok cs <-> forall c, In c cs -> sized_ok c).
Proof.
  intros F E L. destruct (read_back_text cs s fuel F E L) as (vs & -> & F2). rewrite <- (Forall2_all_eq _ _ _ F2). split; congruence.
Qed.

(** ** Every value of type int *)
Definition int32 (c : Z) : Prop := - 2147483648 <= c <= 2147483647.
Lemma encoded_size_negative c : - 2147483648 <= c < 0 -> encoded_size c = Ok 6.
Proof.
  intros H. unfold encoded_size. assert (X : builtin_clz c = Ok 0).
  { unfold builtin_clz, to_u32. replace (c mod 4294967296) with (c + 4294967296) by (Z.div_mod_to_equations; lia).
    destruct (Z.eqb_spec (c + 4294967296) 0); [lia|].
    assert (L : Z.log2 (c + 4294967296) = 31) by (apply Z.log2_unique; [lia|change (2 ^ 31) with 2147483648; change (2 ^ Z.succ 31) with 4294967296; lia]).
    rewrite L. reflexivity. }
  rewrite X. vm_compute. reflexivity.
Qed.
Lemma encode_one_negative c : - 2147483648 <= c < 0 -> utf8_encode_one c = UB BadPointer.
Proof.
  intros H. unfold utf8_encode_one, it_assign. rewrite zero_buffer_read. cbn [bind]. unfold proxy_assign.
  rewrite (encoded_size_negative c H). cbn [bind]. change (6 <=? 1) with false. cbv iota.
  change (to_u8 (Z.shiftl 255 (8 - 6))) with 252. change ((6 - 1) * 6) with 30.
  assert (FO : exists b, to_u8 (Z.lor 252 (Z.land (Z.shiftr c 30) 255)) = b /\ 254 <= b < 256).
  { rewrite Z.shiftr_div_pow2 by lia. change (2 ^ 30) with 1073741824.
    assert (D : c / 1073741824 = -2 \/ c / 1073741824 = -1) by (Z.div_mod_to_equations; lia).
    eexists. split; [reflexivity|]. destruct D as [-> | ->]; vm_compute; split; congruence. }
  destruct FO as (b & -> & B).
  pose proof (wr_app [] 0 [0;0;0;0;0] b) as W. cbn [app] in W. change (zlen (@nil Z)) with 0 in W. rewrite W. cbn [bind].
  pose proof (assign_loop_spec c (Z.to_nat (6 - 1)) [] b [0;0;0;0;0] [] eq_refl) as AL. change (zlen (@nil Z)) with 0 in AL.
  rewrite !app_nil_r in AL. cbn [app] in AL. rewrite AL. cbn [bind]. clear AL W.
  unfold it_preinc, forward_one_codepoint.
  pose proof (rewind_chunk [] b (conts c (Z.to_nat (6 - 1))) [] (0 + Z.of_nat (Z.to_nat (6 - 1))) ltac:(unfold is_byte; lia) ltac:(unfold is_cont; lia)
    (conts_cont c _) ltac:(unfold zlen; rewrite conts_length; lia)) as RW.
  change (zlen (@nil Z)) with 0 in RW. rewrite app_nil_r in RW. cbn [app] in RW. rewrite Z.add_0_l in RW. rewrite RW.
  cbn [bind]. rewrite (rd_at _ [] b (conts c (Z.to_nat (6 - 1)))) by reflexivity. cbn [bind].
  rewrite codepoint_size_spec by (unfold is_byte; lia). cbn [bind]. unfold padd.
  assert (LL : zlen (b :: conts c (Z.to_nat (6 - 1))) = 6) by (rewrite zlen_cons; unfold zlen; rewrite conts_length; reflexivity).
  rewrite LL. assert (7 <= announced_len b) by (unfold announced_len; zcases; lia).
  replace ((0 <=? 0 + announced_len b) && (0 + announced_len b <=? 6)) with false by lia. reflexivity.
Qed.
Definition int_overruns (c : Z) : Prop :=
  c < 0 \/
  (0x800 <= c <= 0x1FFF /\ 62 <= (c / 64) mod 64) \/
  (0x10000 <= c <= 0x7FFFF /\ 30 <= (c / 4096) mod 32) \/
  (0x200000 <= c <= 0x1FFFFFF /\ 14 <= (c / 262144) mod 16) \/
  (0x4000000 <= c /\ 6 <= (c / 16777216) mod 8).
Lemma lor_254_5 n x : 2 <= n <= 5 -> 0 <= x < 256 ->
  (254 <= Z.lor (256 - 2 ^ (8 - n)) x <-> 2 ^ (8 - n) - 2 <= x mod 2 ^ (8 - n)).
Proof.
  intros Hn Hx.
  assert (E := byte_sweep (fun x => forallb (fun n =>
      eqb (254 <=? Z.lor (256 - 2 ^ (8 - n)) x) (2 ^ (8 - n) - 2 <=? x mod 2 ^ (8 - n))) [2;3;4;5])
    ltac:(vm_compute; reflexivity) x ltac:(unfold is_byte; lia)).
  cbv beta in E. rewrite forallb_forall in E. specialize (E n ltac:(cbn; lia)). cbv beta in E.
  apply eqb_prop in E. lia.
Qed.
Lemma encode_one_int c : int32 c ->
  ((exists l, utf8_encode_one c = Ok l) <-> c <> 0 /\ ~ int_overruns c) /\
  (utf8_encode_one c = UB ClzZero <-> c = 0) /\
  (utf8_encode_one c = UB BadPointer <-> int_overruns c).
Proof.
  intros Hc. unfold int32 in Hc.
  assert (G : forall (P : Prop) e, ((P /\ e = UB BadPointer) \/ (~ P /\ exists l : list Z, e = Ok l)) -> c <> 0 ->
    ((exists l, e = Ok l) <-> c <> 0 /\ ~ P) /\ (e = UB ClzZero <-> c = 0) /\ (e = UB BadPointer <-> P)).
  { intros P e D N0. destruct D as [[HP ->]|[HP [l ->]]].
    - split; [|split]; split; intros X; try tauto; try discriminate. destruct X; discriminate.
    - split; [|split]; split; intros X; try tauto; try discriminate. exists l; reflexivity. }
  destruct (Z.eq_dec c 0) as [->|Hc0].
  { assert (E : utf8_encode_one 0 = UB ClzZero) by (vm_compute; reflexivity). rewrite E.
    unfold int_overruns. split; [|split]; split; intros H; try lia; try discriminate; try reflexivity.
    - destruct H; discriminate. }
  apply G; [clear G|assumption].
  destruct (Z.ltb_spec c 0) as [Neg|Pos].
  { left. split; [left; assumption|apply encode_one_negative; lia]. }
  destruct (Z.ltb_spec c 128).
  { right. split; [unfold int_overruns; lia|]. rewrite encode_one_ascii by lia. eauto. }
  destruct (encoded_size_ranges c ltac:(lia)) as (n & ES & N1 & N2 & N3 & N4 & N5).
  assert (Hn : 2 <= n <= 5) by lia.
  rewrite (encode_one_multi c n ES) by lia.
  assert (K : 254 <= first_octet n c <-> int_overruns c).
  { unfold first_octet. rewrite lor_254_5; [|assumption|apply Z.mod_pos_bound; lia]. unfold int_overruns.
    assert (D : n = 2 \/ n = 3 \/ n = 4 \/ n = 5) by lia.
    destruct D as [-> |[-> |[-> | ->]]].
    - change (2 ^ (8 - 2)) with 64. change (2 ^ (6 * (2 - 1))) with 64.
      rewrite <- (Znumtheory.Zmod_div_mod 64 256) by (try lia; exists 4; reflexivity). split; intros X; Z.div_mod_to_equations; lia.
    - change (2 ^ (8 - 3)) with 32. change (2 ^ (6 * (3 - 1))) with 4096.
      rewrite <- (Znumtheory.Zmod_div_mod 32 256) by (try lia; exists 8; reflexivity). split; intros X; Z.div_mod_to_equations; lia.
    - change (2 ^ (8 - 4)) with 16. change (2 ^ (6 * (4 - 1))) with 262144.
      rewrite <- (Znumtheory.Zmod_div_mod 16 256) by (try lia; exists 16; reflexivity). split; intros X; Z.div_mod_to_equations; lia.
    - change (2 ^ (8 - 5)) with 8. change (2 ^ (6 * (5 - 1))) with 16777216.
      rewrite <- (Znumtheory.Zmod_div_mod 8 256) by (try lia; exists 32; reflexivity). split; intros X; Z.div_mod_to_equations; lia. }
  destruct (Z.ltb_spec (first_octet n c) 254) as [S|S].
  - right. split; [rewrite <- K; lia|]. eauto.
  - left. split; [apply K; assumption|reflexivity].
Qed.
Lemma append_int_defined_iff cs : Forall int32 cs -> forall out,
  ((exists l, utf8_append_from_utf32ne out cs = Ok l) <-> forall c, In c cs -> c <> 0 /\ ~ int_overruns c).
Proof.
  intros F. induction F as [|c cs Hc _ IH]; intros out.
  - split; [intros _ ? []|]. intros _. exists out. reflexivity.
  - cbn [utf8_append_from_utf32ne]. destruct (encode_one_int c Hc) as [D _]. split.
    + intros [l E]. destruct (utf8_encode_one c) as [x| |] eqn:EO; try discriminate. cbn [bind] in E.
      assert (H := proj1 (IH _) (ex_intro _ l E)).
      intros d [<-|I]; [apply D; eexists; reflexivity|apply H; assumption].
    + intros H. destruct (proj2 D (H c (or_introl eq_refl))) as [x EO]. rewrite EO. cbn [bind].
      apply IH. intros d I. apply H. right. assumption.
Qed.

(** ** One assignment, read back *)
Lemma decode_loop_sound l : forall A x B v w, Forall is_byte l -> 0 <= v -> decode_loop (length l) (A ++ x :: l ++ B) (zlen A) v = Ok w -> 0 <= w ->
  w = fold_left (fun v b => v * 64 + b mod 64) l v.
Proof.
  induction l as [|b l IH]; intros A x B v w FB Hv E Hw; cbn [length decode_loop fold_left] in *; [congruence|].
  destruct (padd _ (zlen A) 1) as [p| |] eqn:EP; try discriminate. apply padd_inv in EP. destruct EP as [-> _]. cbn [bind] in E.
  rewrite (rd_at _ (A ++ [x]) b (l ++ B)) in E by (first [rewrite <- app_assoc; reflexivity|zl]). cbn [bind] in E.
  pose proof (Forall_inv FB) as Hb.
  destruct (shl6 v) as [v'| |] eqn:ES; try discriminate. cbn [bind] in E. rewrite low6_spec in E by assumption.
  unfold shl6 in ES. destruct (Z.leb_spec 0 v); [|lia]. cbn [andb] in ES. destruct (Z.ltb_spec (v * 64) 4294967296); [|discriminate].
  injection ES as ES. unfold to_i32 in ES. rewrite Z.mod_small in ES by lia.
  assert (L6 : 0 <= low6 b < 64) by (unfold low6; apply Z.mod_pos_bound; lia).
  destruct (Z.ltb_spec (v * 64) 2147483648) as [LT|GE].
  - subst v'. rewrite lor_low6 in E by assumption.
    replace (A ++ x :: (b :: l) ++ B) with ((A ++ [x]) ++ b :: l ++ B) in E by (rewrite <- app_assoc; reflexivity).
    replace (zlen A + 1) with (zlen (A ++ [x])) in E by zl.
    apply (IH _ _ _ _ _ (Forall_inv_tail FB)) in E; [|lia|assumption]. exact E.
  - exfalso. subst v'. replace (v * 64 - 4294967296) with ((v - 67108864) * 64) in E by lia. rewrite lor_low6 in E by assumption.
    assert (N : (v - 67108864) * 64 + low6 b < 0) by lia. destruct l as [|b2 l]; cbn [length decode_loop] in E; [injection E as <-; lia|].
    destruct (padd _ (zlen A + 1) 1) as [p| |]; try discriminate. cbn [bind] in E. destruct (rd _ p); try discriminate. cbn [bind] in E.
    unfold shl6 in E. destruct (Z.leb_spec 0 ((v - 67108864) * 64 + low6 b)); [lia|]. discriminate.
Qed.
Lemma assign_read_back A B c : 1 <= c < 2147483648 ->
  exists mem q, it_assign (A ++ repeat 0 7 ++ B) (zlen A) c = Ok (mem, q) /\
    ((exists r, it_deref mem q = Ok (c, r)) <-> sized_ok c).
Proof.
  intros Hc. unfold it_assign.
  assert (PR : proxy_read (A ++ repeat 0 7 ++ B) (zlen A) = Ok 0).
  { unfold proxy_read, current_codepoint. change (repeat 0 7 ++ B) with (0 :: repeat 0 6 ++ B). rewrite rd_app. reflexivity. }
  rewrite PR. cbn [bind].
  destruct (Z.ltb_spec c 128) as [S|S].
  { change (repeat 0 7 ++ B) with (0 :: repeat 0 6 ++ B). rewrite proxy_assign_ascii by lia. do 2 eexists. split; [reflexivity|].
    split; [intros _; unfold sized_ok; lia|]. intros _. exists (zlen A). unfold it_deref, current_codepoint. rewrite rd_app. cbn [bind].
    rewrite is_7bit_spec by (unfold is_byte; lia). destruct (Z.ltb_spec c 128); [|lia]. unfold char_int. destruct (Z.ltb_spec c 128); [|lia]. reflexivity. }
  destruct (encoded_size_ranges c ltac:(lia)) as (n & ES & N1 & N2 & N3 & N4 & N5).
  assert (Hn : 2 <= n <= 5) by (clear - S Hc N1 N2 N3 N4 N5; lia).
  assert (ER : repeat 0 7 ++ B = 0 :: repeat 0 (Z.to_nat (n - 1)) ++ (repeat 0 (Z.to_nat (7 - n)) ++ B)).
  { change (repeat 0 7) with (0 :: repeat 0 6). replace 6%nat with (Z.to_nat (n - 1) + Z.to_nat (7 - n))%nat by (clear - Hn; lia).
    rewrite repeat_app, <- app_comm_cons, <- app_assoc. reflexivity. }
  rewrite ER. rewrite (proxy_assign_multi A 0 _ _ c n ES Hn) by (first [lia | unfold zlen; rewrite repeat_length; clear - Hn; lia]).
  do 2 eexists. split; [reflexivity|].
  destruct (first_octet_eq n c Hn ltac:(lia)) as (_ & FB & F192).
  assert (D : sized_ok c \/ ~ sized_ok c) by (unfold sized_ok; lia). destruct D as [D|D].
  { split; [intros _; assumption|intros _]. exists (zlen A).
    destruct (sized_ok_encoding c D S) as (n' & ES' & _ & EN). assert (n' = n) by congruence. subst n'.
    destruct (utf8_encode_chunk c (sized_ok_31 c D)) as (l & t & EC & C & CV). rewrite EN in EC. injection EC as <- <-.
    unfold it_deref. rewrite (deref_chunk A _ _ _ (n - 1) C) by (unfold zlen; rewrite conts_length; clear - Hn; lia). f_equal. f_equal. exact CV. }
  split; [|tauto]. intros (r & E). exfalso. unfold it_deref, current_codepoint in E.
  set (b := first_octet n c) in *.
  destruct (rd _ (zlen A + (n - 1))) as [x| |] eqn:ER1; try discriminate. cbn [bind] in E.
  assert (X : continuation_octet x).
  { assert (XN : exists t1 t2, conts c (Z.to_nat (n - 1)) = t1 ++ x :: t2 /\ zlen t1 = n - 2).
    { destruct (nth_error (conts c (Z.to_nat (n - 1))) (Z.to_nat (n - 2))) as [y|] eqn:NE.
      - apply nth_error_split in NE. destruct NE as (t1 & t2 & Et & Lt). exists t1, t2.
        rewrite Et in ER1. rewrite (rd_at _ (A ++ b :: t1) y (t2 ++ repeat 0 (Z.to_nat (7 - n)) ++ B)) in ER1.
        + injection ER1 as ->. split; [assumption|]. unfold zlen. clear - Lt Hn. lia.
        + repeat (rewrite <- ?app_assoc; cbn [app]). reflexivity.
        + rewrite zlen_app, zlen_cons. unfold zlen in *. clear - Lt Hn. lia.
      - apply nth_error_None in NE. rewrite conts_length in NE. clear - NE Hn. lia. }
    destruct XN as (t1 & t2 & Et & _). pose proof (conts_cont c (Z.to_nat (n - 1))) as CC. rewrite Et in CC. rewrite Forall_forall in CC.
    apply CC. apply in_or_app. right. left. reflexivity. }
  rewrite is_7bit_spec in E by (apply cont_is_byte; assumption). destruct (Z.ltb_spec x 128) as [X1|_]; [clear - X X1; unfold continuation_octet in X; lia|].
  rewrite (rewind_chunk A b (conts c (Z.to_nat (n - 1)))) in E;
    [|assumption|clear - F192; unfold is_cont; lia|apply conts_cont|unfold zlen; rewrite conts_length; clear - Hn; lia].
  cbn [bind] in E. destruct (Z.ltb_spec 0 (n - 1)) as [_|?]; [|lia]. rewrite rd_app in E. cbn [bind] in E.
  rewrite codepoint_size_spec in E by assumption. cbn [bind] in E.
  destruct (Z.ltb_spec (7 - announced_len b) 0) as [|SZ]; [discriminate|].
  assert (LT : b < 255).
  { clear - SZ FB. clearbody b. destruct (Z.eq_dec b 255) as [->|]; [exfalso; vm_compute in SZ; congruence|unfold is_byte in FB; lia]. }
  destruct (wrong_value c n ES ltac:(lia) D LT) as (_ & AN & W). fold b in AN, W.
  set (a := announced_len b) in *.
  destruct (decode_loop _ _ _ _) as [v| |] eqn:ED; try discriminate. cbn [bind] in E. injection E as -> _.
  set (t := conts c (Z.to_nat (n - 1)) ++ repeat 0 (Z.to_nat (7 - n))) in *.
  assert (LT6 : length t = 6%nat) by (unfold t; rewrite app_length, conts_length, repeat_length; clear - Hn; lia).
  assert (LF : length (firstn (Z.to_nat (a - 1)) t) = Z.to_nat (a - 1)) by (rewrite firstn_length; clear - LT6 AN; lia).
  assert (EM : A ++ b :: conts c (Z.to_nat (n - 1)) ++ repeat 0 (Z.to_nat (7 - n)) ++ B
    = A ++ b :: firstn (Z.to_nat (a - 1)) t ++ (skipn (Z.to_nat (a - 1)) t ++ B)).
  { do 2 f_equal. rewrite app_assoc. fold t. rewrite app_assoc, firstn_skipn. reflexivity. }
  rewrite EM in ED. rewrite <- LF in ED at 1. apply W.
  assert (MV : Z.land (char_int b) (to_u8 (Z.lnot (Z.shiftl 255 (7 - a)))) = b mod 2 ^ (7 - a)).
  { clear - FB F192 LT AN. unfold a in *. clearbody b.
    assert (SWE := byte_sweep (fun b => negb ((192 <=? b) && (b <? 255)) || (Z.land (char_int b) (to_u8 (Z.lnot (Z.shiftl 255 (7 - announced_len b)))) =? b mod 2 ^ (7 - announced_len b)))
      ltac:(vm_compute; reflexivity) b FB). cbv beta in SWE. lia. }
  rewrite MV in ED. symmetry. refine (decode_loop_sound _ A b _ _ c _ _ ED _); [|apply Z.mod_pos_bound, Z.pow_pos_nonneg; lia|lia].
  apply Forall_firstn. unfold t. apply Forall_app. split; [eapply Forall_impl; [|apply conts_cont]; intros y; apply cont_is_byte|].
  apply Forall_forall. intros y I. apply repeat_spec in I. subst y. unfold is_byte. lia.
Qed.
