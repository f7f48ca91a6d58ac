(** * More about encoding: exact conditions for texts, writing over a text in place *)
From Verif Require Import Prelude Utf8Model TextModel Utf8Spec Utf8Proofs IterProofs EncodeProofs EncodeText.

(** ** C19, C20 for texts *)
Lemma append_text_unicode_iff out cs : Forall unicode_codepoint cs ->
  (utf8_append_from_utf32ne out cs = Ok (out ++ utf8_text cs) <-> forall c, In c cs -> sized_ok_unicode c).
Proof.
  intros F. rewrite append_text_iff.
  - rewrite Forall_forall. rewrite Forall_forall in F. unfold unicode_codepoint in F. split; intros H c I; specialize (H c I); specialize (F c I);
      unfold sized_ok, sized_ok_unicode in *; lia.
  - eapply Forall_impl; [|exact F]. unfold unicode_codepoint, codepoint31. intros; lia.
Qed.
Lemma append_defined_iff cs : Forall unicode_codepoint cs -> forall out,
  ((exists l, utf8_append_from_utf32ne out cs = Ok l) <-> forall c, In c cs -> c <> 0 /\ ~ overruns c).
Proof.
  intros F. induction F as [|c cs Hc _ IH]; intros out.
  - split; [intros _ ? []|]. intros _. exists out. reflexivity.
  - cbn [utf8_append_from_utf32ne]. destruct (encode_one_defined_iff c Hc) as [D _]. split.
    + intros [l E]. destruct (utf8_encode_one c) as [x| |] eqn:EO; try discriminate. cbn [bind] in E.
      assert (H := proj1 (IH _) (ex_intro _ l E)).
      intros d [<-|I]; [apply D; eexists; reflexivity|apply H; assumption].
    + intros H. destruct (proj2 D (H c (or_introl eq_refl))) as [x EO]. rewrite EO. cbn [bind].
      apply IH. intros d I. apply H. right. assumption.
Qed.

(** ** C22 for texts *)
Lemma encode_nonempty c : 1 <= zlen (utf8_encode c).
Proof. unfold utf8_encode. zcases; zl. Qed.

Lemma upd_length l : forall n v, length (upd l n v) = length l.
Proof. induction l as [|x l IH]; intros [|n] v; cbn; auto. Qed.
Lemma upd_nth_other l : forall n m v d, m <> n -> nth m (upd l n v) d = nth m l d.
Proof.
  induction l as [|x l IH]; intros [|n] [|m] v d H; cbn; auto; try lia.
Qed.
Lemma upd_nth_same l : forall n v d, (n < length l)%nat -> nth n (upd l n v) d = v.
Proof. induction l as [|x l IH]; intros [|n] v d H; cbn in *; auto; try lia. apply IH. lia. Qed.
Lemma wr_inv mem p v m : wr mem p v = Ok m -> 0 <= p < zlen mem /\ m = upd mem (Z.to_nat p) v.
Proof.
  unfold wr. destruct (Z.leb_spec 0 p); cbn [andb]; [|discriminate]. destruct (Z.ltb_spec p (zlen mem)); [|discriminate].
  intros E. injection E as <-. split; [lia|reflexivity].
Qed.
Lemma assign_loop_frame c : forall n mem p m q, assign_loop n mem p c = Ok (m, q) -> 0 <= p ->
  q = p + Z.of_nat n /\ length m = length mem /\ (forall i, 0 <= i <= p \/ q < i -> octet m i = octet mem i).
Proof.
  induction n as [|n IH]; intros mem p m q E Hp; cbn [assign_loop] in E.
  - injection E as <- <-. split; [lia|]. split; [reflexivity|]. reflexivity.
  - destruct (padd mem p 1) as [p1| |] eqn:EP; try discriminate. cbn [bind] in E. apply padd_inv in EP. destruct EP as [-> EP].
    destruct (wr mem (p + 1) _) as [m1| |] eqn:EW; try discriminate. cbn [bind] in E. apply wr_inv in EW. destruct EW as [W1 W2].
    destruct (IH _ _ _ _ E ltac:(lia)) as (-> & L & O). split; [lia|].
    split; [rewrite L, W2; apply upd_length|].
    intros i Hi. rewrite O by lia. unfold octet. rewrite W2. apply upd_nth_other. lia.
Qed.
(** What an assignment through the iterator may change. *)
Lemma it_assign_frame mem p c m q : it_assign mem p c = Ok (m, q) -> 0 <= c < 2147483648 ->
  0 <= p < zlen mem /\ length m = length mem /\ p <= q < zlen mem /\
  (forall i, 0 <= i < p \/ q < i -> octet m i = octet mem i) /\
  (exists n, encoded_size c = Ok n /\ q = p + Z.max 0 (n - 1)) /\
  ~ continuation_octet (octet m p) /\ is_byte (octet m p).
Proof.
  intros E Hc. unfold it_assign in E. destruct (proxy_read mem p) as [x| |]; try discriminate. cbn [bind] in E.
  unfold proxy_assign in E. destruct (Z.eq_dec c 0) as [->|N0]; [vm_compute in E; discriminate|].
  destruct (encoded_size_ranges c ltac:(lia)) as (n & ES & N1 & N2 & N3 & N4 & N5). rewrite ES in E. cbn [bind] in E.
  destruct (Z.leb_spec n 1) as [L1|L1].
  - destruct (wr mem p _) as [m1| |] eqn:EW; try discriminate. cbn [bind] in E. injection E as <- <-.
    apply wr_inv in EW. destruct EW as [W1 ->]. assert (C128 : c < 128) by lia.
    split; [assumption|]. split; [apply upd_length|]. split; [lia|].
    split; [intros i Hi; unfold octet; apply upd_nth_other; lia|]. split; [exists n; split; [assumption|lia]|].
    assert (O : octet (upd mem (Z.to_nat p) (Z.land c 255)) p = c).
    { unfold octet. rewrite upd_nth_same by (unfold zlen in W1; lia). change 255 with (Z.ones 8).
      rewrite Z.land_ones by lia. apply Z.mod_small. lia. }
    rewrite O. unfold continuation_octet, is_byte. split; lia.
  - destruct (wr mem p _) as [m1| |] eqn:EW; try discriminate. cbn [bind] in E.
    apply wr_inv in EW. destruct EW as [W1 W2].
    destruct (assign_loop_frame _ _ _ _ _ _ E ltac:(lia)) as (Q & L & O).
    assert (Hn : 2 <= n <= 5) by lia. destruct (first_octet_eq n c Hn ltac:(lia)) as (FE & FB & FR).
    rewrite FE in W2. assert (LM : length m = length mem) by (rewrite L, W2; apply upd_length).
    assert (QL : q < zlen mem).
    { destruct (Z.to_nat (n - 1)) as [|k] eqn:EK; [lia|]. clear - E Q L W2 EK LM W1.
      assert (LEN : forall j mem p m q, assign_loop (S j) mem p c = Ok (m, q) -> 0 <= p -> q < zlen mem).
      { induction j as [|j IH]; intros mm pp m' qq E' P; cbn [assign_loop] in E'.
        - destruct (padd mm pp 1) as [p1| |] eqn:EP; try discriminate. cbn [bind] in E'. apply padd_inv in EP. destruct EP as [-> EP].
          destruct (wr mm (pp + 1) _) as [m1'| |] eqn:EW; try discriminate. cbn [bind] in E'. injection E' as <- <-.
          apply wr_inv in EW. lia.
        - destruct (padd mm pp 1) as [p1| |] eqn:EP; try discriminate. cbn [bind] in E'. apply padd_inv in EP. destruct EP as [-> EP].
          destruct (wr mm (pp + 1) _) as [m1'| |] eqn:EW; try discriminate. cbn [bind] in E'.
          specialize (IH _ _ _ _ E' ltac:(lia)). apply wr_inv in EW. destruct EW as [_ ->].
          unfold zlen in *. rewrite upd_length in IH. lia. }
      specialize (LEN _ _ _ _ _ E ltac:(lia)). unfold zlen in *. rewrite W2, upd_length in LEN. lia. }
    split; [assumption|]. split; [assumption|]. split; [lia|].
    split.
    { intros i Hi. rewrite O by lia. rewrite W2. unfold octet. apply upd_nth_other. lia. }
    split; [exists n; split; [assumption|lia]|].
    assert (OP : octet m p = first_octet n c).
    { rewrite O by lia. rewrite W2. unfold octet. apply upd_nth_same. unfold zlen in W1. lia. }
    rewrite OP. unfold continuation_octet. split; [lia|assumption].
Qed.

(** Rewinding never goes in front of an octet that is not a continuation octet. *)
Lemma rewind_loop_stops fuel : forall mem p ret b q lo, rewind_loop fuel mem p ret = Ok (b, q) ->
  0 <= lo <= p -> is_byte (octet mem lo) -> ~ continuation_octet (octet mem lo) -> lo <= q <= p.
Proof.
  induction fuel as [|f IH]; intros mem p ret b q lo E Hlo HB HN; cbn [rewind_loop] in E; [discriminate|].
  destruct (rd mem p) as [x| |] eqn:ER; try discriminate. cbn [bind] in E.
  destruct (is_codepoint_continuation x) eqn:EC; [|injection E as _ <-; lia].
  destruct (padd mem p (-1)) as [p1| |] eqn:EP; try discriminate. cbn [bind] in E. apply padd_inv in EP. destruct EP as [-> EP].
  destruct (Z.eq_dec lo p) as [->|NE].
  - exfalso. apply rd_inv in ER. destruct ER as [R1 R2]. apply HN.
    assert (O : octet mem p = x) by (unfold octet; apply nth_error_nth; assumption). rewrite O in *.
    rewrite is_continuation_spec in EC by assumption. unfold is_cont in EC. unfold continuation_octet. lia.
  - specialize (IH _ _ _ _ _ lo E ltac:(lia) HB HN). lia.
Qed.
Lemma preinc_after mem p q r : it_preinc mem q = Ok r -> 0 <= p <= q -> is_byte (octet mem p) -> ~ continuation_octet (octet mem p) ->
  Forall is_byte mem ->
  p < r /\ ((forall i, p < i <= q -> continuation_octet (octet mem i)) -> r = p + announced_len (octet mem p)).
Proof.
  unfold it_preinc, forward_one_codepoint, rewind_to_start_of_codepoint. intros E H HB HN F.
  destruct (rewind_loop _ mem q false) as [[b s]| |] eqn:ER; try discriminate. cbn [bind] in E.
  destruct (rd mem s) as [x| |] eqn:EX; try discriminate. cbn [bind] in E.
  pose proof (rd_byte _ _ _ F EX) as BX. rewrite (codepoint_size_spec x BX) in E. cbn [bind] in E.
  apply padd_inv in E. destruct E as [-> E]. pose proof (announced_len_range x) as AR.
  assert (S1 := rewind_loop_stops _ _ _ _ _ _ p ER H HB HN). split; [lia|].
  intros HC. assert (SP : s = p).
  { destruct (Z.eq_dec s p) as [|NE]; [assumption|]. exfalso.
    (* the rewind stops at an octet that is not a continuation octet *)
    assert (ST : forall f mem p ret b q, rewind_loop f mem p ret = Ok (b, q) ->
       exists y, rd mem q = Ok y /\ is_codepoint_continuation y = false).
    { clear. induction f as [|f IH]; intros mem p ret b q E; cbn [rewind_loop] in E; [discriminate|].
      destruct (rd mem p) as [x| |] eqn:ER; try discriminate. cbn [bind] in E.
      destruct (is_codepoint_continuation x) eqn:EC.
      - destruct (padd mem p (-1)) as [p1| |] eqn:EP; try discriminate. cbn [bind] in E. eapply IH; exact E.
      - injection E as _ <-. exists x. split; assumption. }
    destruct (ST _ _ _ _ _ _ ER) as (y & Ey & Cy). rewrite EX in Ey. injection Ey as <-.
    rewrite is_continuation_spec in Cy by assumption. specialize (HC s ltac:(lia)).
    assert (O : octet mem s = x) by (unfold octet; apply rd_inv in EX; apply nth_error_nth; apply EX).
    rewrite O in HC. apply cont_is_cont in HC. congruence. }
  subst s. f_equal. f_equal. unfold octet. symmetry. apply nth_error_nth. apply rd_inv in EX. apply EX.
Qed.

Lemma upd_bytes l : forall n v, Forall is_byte l -> is_byte v -> Forall is_byte (upd l n v).
Proof.
  induction l as [|x l IH]; intros [|n] v F B; cbn; auto; inversion F; subst; constructor; auto.
Qed.
Lemma to_u8_byte v : is_byte (to_u8 v).
Proof. unfold to_u8, is_byte. apply Z.mod_pos_bound. lia. Qed.
Lemma assign_loop_bytes c : forall n mem p m q, assign_loop n mem p c = Ok (m, q) -> Forall is_byte mem -> Forall is_byte m.
Proof.
  induction n as [|n IH]; intros mem p m q E F; cbn [assign_loop] in E; [injection E as <- <-; assumption|].
  destruct (padd mem p 1) as [p1| |]; try discriminate. cbn [bind] in E.
  destruct (wr mem p1 _) as [m1| |] eqn:EW; try discriminate. cbn [bind] in E. apply wr_inv in EW. destruct EW as [_ ->].
  eapply IH; [exact E|]. apply upd_bytes; [assumption|apply to_u8_byte].
Qed.
Lemma it_assign_bytes mem p c m q : it_assign mem p c = Ok (m, q) -> Forall is_byte mem -> Forall is_byte m.
Proof.
  unfold it_assign. destruct (proxy_read mem p); try discriminate. cbn [bind]. unfold proxy_assign.
  destruct (encoded_size c) as [n| |]; try discriminate. cbn [bind]. intros E F. destruct (n <=? 1).
  - destruct (wr mem p _) as [m1| |] eqn:EW; try discriminate. cbn [bind] in E. injection E as <- <-.
    apply wr_inv in EW. destruct EW as [_ ->]. apply upd_bytes; [assumption|]. unfold is_byte. change 255 with (Z.ones 8).
    rewrite Z.land_ones by lia. apply Z.mod_pos_bound. lia.
  - destruct (wr mem p _) as [m1| |] eqn:EW; try discriminate. cbn [bind] in E.
    apply wr_inv in EW. destruct EW as [_ ->]. eapply assign_loop_bytes; [exact E|].
    apply upd_bytes; [assumption|apply to_u8_byte].
Qed.

(** Writing never changes what is in front of the position. *)
Lemma write_frame cs : Forall codepoint31 cs -> forall mem p m r, write_codepoints mem p cs = Ok (m, r) ->
  Forall is_byte mem -> 0 <= p -> forall i, 0 <= i < p -> octet m i = octet mem i.
Proof.
  intros F. induction F as [|c cs Hc _ IH]; intros mem p m r E FB Hp i Hi; cbn [write_codepoints] in E.
  - injection E as <- <-. reflexivity.
  - destruct (it_assign mem p c) as [[m1 q]| |] eqn:EA; try discriminate. cbn [bind] in E.
    destruct (it_preinc m1 q) as [p1| |] eqn:EI; try discriminate. cbn [bind] in E.
    destruct (it_assign_frame _ _ _ _ _ EA Hc) as (P1 & L & Q & O & _ & NC & BY).
    pose proof (it_assign_bytes _ _ _ _ _ EA FB) as FB1.
    destruct (preinc_after m1 p q p1 EI ltac:(lia) BY NC FB1) as [GT _].
    rewrite (IH _ _ _ _ E FB1 ltac:(lia) i ltac:(lia)). apply O. lia.
Qed.

Lemma octet_app_r A B i : 0 <= i -> octet (A ++ B) (zlen A + i) = octet B i.
Proof.
  intros H. unfold octet, zlen. rewrite app_nth2 by lia. f_equal. lia.
Qed.
Lemma octet_app_l A B i : 0 <= i < zlen A -> octet (A ++ B) i = octet A i.
Proof. intros H. unfold octet, zlen in *. apply app_nth1. lia. Qed.

Lemma write_text_iff cs : Forall codepoint31 cs -> forall A old B r,
  Forall is_byte A -> Forall is_byte B -> Forall ascii old -> zlen old = zlen (utf8_text cs) ->
  write_codepoints (A ++ old ++ B) (zlen A) cs = Ok (A ++ utf8_text cs ++ B, r) -> Forall sized_ok cs.
Proof.
  intros F. induction F as [|c cs Hc F IH]; intros A old B r FA FB FO L E; [constructor|].
  change (utf8_text (c :: cs)) with (utf8_encode c ++ utf8_text cs) in *. rewrite zlen_app in L.
  assert (FO8 : Forall is_byte old) by (eapply Forall_impl; [|exact FO]; unfold ascii, is_byte; intros; lia).
  assert (FM : Forall is_byte (A ++ old ++ B)) by (rewrite !Forall_app; auto).
  pose proof (zlen_nonneg (utf8_text cs)) as ZT. pose proof (zlen_nonneg A) as ZA. pose proof (encode_nonempty c) as ZE.
  assert (D : sized_ok c \/ ~ sized_ok c) by (unfold sized_ok; lia). destruct D as [D|D].
  - constructor; [assumption|].
    set (o1 := firstn (length (utf8_encode c)) old). set (o2 := skipn (length (utf8_encode c)) old).
    assert (EO : old = o1 ++ o2) by (symmetry; apply firstn_skipn).
    assert (L1 : zlen o1 = zlen (utf8_encode c)) by (unfold o1, zlen in *; rewrite firstn_length; lia).
    assert (L2 : zlen o2 = zlen (utf8_text cs)) by (rewrite EO in L; rewrite zlen_app in L; lia).
    rewrite EO in FO. apply Forall_app in FO. destruct FO as [FO1 FO2].
    cbn [write_codepoints] in E. rewrite EO in E.
    replace (A ++ (o1 ++ o2) ++ B) with (A ++ o1 ++ (o2 ++ B)) in E by (rewrite <- !app_assoc; reflexivity).
    destruct (write_one A o1 (o2 ++ B) c D FO1 L1) as (q & EA & _ & I & _). rewrite EA in E. cbn [bind] in E.
    rewrite I in E. cbn [bind] in E.
    replace (A ++ utf8_encode c ++ o2 ++ B) with ((A ++ utf8_encode c) ++ o2 ++ B) in E by (rewrite <- app_assoc; reflexivity).
    rewrite <- zlen_app in E. apply (IH (A ++ utf8_encode c) o2 B r); auto.
    + apply Forall_app. split; [assumption|]. destruct (utf8_encode_chunk c Hc) as (l & t & EN & C & _). rewrite EN.
      constructor; [apply (ch_byte _ _ C)|]. eapply Forall_impl; [|exact (ch_tail _ _ C)]. apply cont_is_byte.
    + rewrite E. do 2 f_equal. rewrite <- !app_assoc. reflexivity.
  - exfalso. cbn [write_codepoints] in E.
    destruct (it_assign (A ++ old ++ B) (zlen A) c) as [[m1 q]| |] eqn:EA; try discriminate. cbn [bind] in E.
    destruct (it_preinc m1 q) as [p1| |] eqn:EI; try discriminate. cbn [bind] in E.
    destruct (it_assign_frame _ _ _ _ _ EA Hc) as (P1 & LM & Q & O & (n & ES & EQ) & NC & BY).
    pose proof (it_assign_bytes _ _ _ _ _ EA FM) as FB1.
    destruct (preinc_after m1 (zlen A) q p1 EI ltac:(lia) BY NC FB1) as [GT AN].
    pose proof (fun H => write_frame cs F _ _ _ _ E FB1 ltac:(lia) (zlen A) H) as W0.
    specialize (W0 ltac:(lia)).
    destruct (utf8_encode_chunk c Hc) as (l & t & EN & C & _).
    assert (LEAD : octet (A ++ (utf8_encode c ++ utf8_text cs) ++ B) (zlen A) = l).
    { rewrite <- (Z.add_0_r (zlen A)), octet_app_r by lia. rewrite EN. reflexivity. }
    rewrite LEAD in W0.
    (* the number of octets written is less than needed *)
    assert (SM : n < zlen (utf8_encode c) /\ 128 <= c).
    { destruct (Z.eq_dec c 0) as [->|N0]; [vm_compute in ES; discriminate|].
      unfold codepoint31 in Hc. change (2 ^ 31) with 2147483648 in Hc.
      destruct (encoded_size_ranges c ltac:(lia)) as (n' & ES' & N1 & N2 & N3 & N4 & N5). rewrite ES in ES'. injection ES' as <-.
      unfold sized_ok in D. unfold utf8_encode. zcases; unfold zlen; cbn [length]; lia. }
    destruct SM as [SM C128].
    assert (N2 : 2 <= n).
    { unfold codepoint31 in Hc. change (2 ^ 31) with 2147483648 in Hc.
      destruct (encoded_size_ranges c ltac:(lia)) as (n' & ES' & N1 & N2 & N3 & N4 & N5). rewrite ES in ES'. injection ES' as <-. lia. }
    assert (EQ' : q = zlen A + (n - 1)) by lia.
    assert (LL : announced_len l = zlen (utf8_encode c)) by (rewrite EN, zlen_cons; symmetry; exact (ch_len _ _ C)).
    (* the octets p+1..q written are continuation octets *)
    assert (CO : forall i, zlen A < i <= q -> continuation_octet (octet m1 i)).
    { pose proof EA as EA'. unfold it_assign in EA'. destruct (proxy_read _ _) as [x| |]; try discriminate. cbn [bind] in EA'.
      destruct old as [|x0 old0]; [zl|]. cbn [app] in EA'.
      set (w := firstn (Z.to_nat (n - 1)) old0). set (w2 := skipn (Z.to_nat (n - 1)) old0).
      assert (EW : old0 = w ++ w2) by (symmetry; apply firstn_skipn).
      assert (LW : zlen w = n - 1).
      { rewrite zlen_cons in L. unfold w, zlen in *. rewrite firstn_length. lia. }
      rewrite EW in EA'. rewrite <- app_assoc in EA'.
      rewrite (proxy_assign_multi A x0 w (w2 ++ B) c n ES) in EA'; [| |unfold codepoint31 in Hc; lia|exact LW].
      - injection EA' as <- _. intros i Hi.
        replace i with (zlen A + (1 + (i - zlen A - 1))) by lia. rewrite octet_app_r by lia.
        change (first_octet n c :: conts c (Z.to_nat (n - 1)) ++ w2 ++ B) with ([first_octet n c] ++ conts c (Z.to_nat (n - 1)) ++ w2 ++ B).
        change 1 with (zlen [first_octet n c]) at 1. rewrite octet_app_r by lia. rewrite octet_app_l.
        + pose proof (conts_cont c (Z.to_nat (n - 1))) as FC. rewrite Forall_forall in FC. apply FC. unfold octet.
          apply nth_In. change (zlen [first_octet n c]) with 1 in *. rewrite conts_length. lia.
        + change (zlen [first_octet n c]) with 1. replace (zlen (conts c (Z.to_nat (n - 1)))) with (n - 1) by (unfold zlen at 1; rewrite conts_length; lia). lia.
      - unfold codepoint31 in Hc. change (2 ^ 31) with 2147483648 in Hc.
        destruct (encoded_size_ranges c ltac:(lia)) as (n' & ES' & M1 & M2 & M3 & M4 & M5). rewrite ES in ES'. injection ES' as <-. lia. }
    specialize (AN CO). rewrite <- W0, LL in AN.
    pose proof (write_frame cs F _ _ _ _ E FB1 ltac:(lia) (zlen A + n) ltac:(lia)) as WN.
    rewrite O in WN by lia.
    assert (OLD : octet (A ++ old ++ B) (zlen A + n) < 128).
    { rewrite octet_app_r by lia. rewrite octet_app_l by lia. rewrite Forall_forall in FO.
      assert (I : In (octet old n) old) by (unfold octet; apply nth_In; unfold zlen in *; lia).
      specialize (FO _ I). unfold ascii in FO. lia. }
    rewrite octet_app_r in WN by lia. rewrite <- app_assoc in WN. rewrite octet_app_l in WN by lia.
    pose proof (encode_last c (Z.to_nat n) Hc) as EL. unfold octet in WN, OLD. rewrite <- WN in OLD.
    unfold zlen in SM. specialize (EL ltac:(lia)). lia.
Qed.
Lemma write_text_unicode_iff before old after cs : Forall unicode_codepoint cs ->
  Forall is_byte before -> Forall is_byte after ->
  (forall b, In b old -> 0 <= b < 128) -> zlen old = zlen (utf8_text cs) ->
  (write_codepoints (before ++ old ++ after) (zlen before) cs
   = Ok (before ++ utf8_text cs ++ after, zlen before + zlen (utf8_text cs)) <->
   forall c, In c cs -> sized_ok_unicode c).
Proof.
  intros F FA FB FO L. split; [|intros H; apply write_text_unicode; assumption].
  intros E. assert (F31 : Forall codepoint31 cs) by (eapply Forall_impl; [|exact F]; unfold unicode_codepoint, codepoint31; intros; lia).
  pose proof (write_text_iff cs F31 before old after _ FA FB (Forall_ascii _ FO) L E) as W.
  intros c I. rewrite Forall_forall in W, F. specialize (W c I). specialize (F c I). unfold unicode_codepoint, sized_ok, sized_ok_unicode in *. lia.
Qed.

(** ** C24: the second assignment goes to the last octet of the first codepoint *)
Lemma last_octet c : codepoint31 c -> 128 <= c ->
  exists l t x, utf8_encode c = (l :: t) ++ [x] /\ 192 <= l /\ continuation_octet x /\ Forall continuation_octet t.
Proof.
  intros Hc C. destruct (utf8_encode_chunk c Hc) as (l & t & EN & CH & _). 
  assert (T : t <> []).
  { intros ->. pose proof EN as EN'. unfold utf8_encode in EN'. revert EN'. zcases; try lia; discriminate. }
  destruct (exists_last T) as (t' & x & ->). exists l, t', x. split; [exact EN|].
  pose proof (ch_tail _ _ CH) as FT. apply Forall_app in FT. destruct FT as [F1 F2]. inversion F2; subst.
  split; [|split; assumption]. pose proof (ch_len _ _ CH) as AL. rewrite zlen_app in AL. change (zlen [x]) with 1 in AL.
  pose proof (zlen_nonneg t'). pose proof (ch_lead _ _ CH) as NL. unfold is_cont in NL.
  unfold announced_len in AL. destruct (Z.ltb_spec l 192); [|lia]. lia.
Qed.
Lemma nth_firstn_lt {X} (l : list X) : forall n i d, (i < n)%nat -> nth i (firstn n l) d = nth i l d.
Proof. induction l as [|x l IH]; intros [|n] [|i] d H; cbn; auto; try lia. apply IH. lia. Qed.
Lemma assign_twice A old B c d : sized_ok c -> sized_ok d -> 128 <= c -> Forall ascii old ->
  zlen old = zlen (utf8_encode c) + zlen (utf8_encode d) - 1 ->
  exists m q, it_assign (A ++ old ++ B) (zlen A) c = Ok (m, q) /\
    it_assign m q d = Ok (A ++ removelast (utf8_encode c) ++ utf8_encode d ++ B,
                          zlen A + zlen (utf8_encode c) + zlen (utf8_encode d) - 2) /\
    firstn (length (utf8_encode d)) (removelast (utf8_encode c) ++ utf8_encode d ++ B) <> utf8_encode d.
Proof.
  intros Hc Hd C FO L. pose proof (sized_ok_31 c Hc) as Hc31. pose proof (sized_ok_31 d Hd) as Hd31.
  pose proof (encode_nonempty d) as ZD. pose proof (encode_nonempty c) as ZC.
  set (o1 := firstn (length (utf8_encode c)) old). set (o2 := skipn (length (utf8_encode c)) old).
  assert (EO : old = o1 ++ o2) by (symmetry; apply firstn_skipn).
  assert (L1 : zlen o1 = zlen (utf8_encode c)) by (unfold o1, zlen in *; rewrite firstn_length; lia).
  assert (L2 : zlen o2 = zlen (utf8_encode d) - 1) by (rewrite EO in L; rewrite zlen_app in L; lia).
  clearbody o1 o2. rewrite EO in FO. apply Forall_app in FO. destruct FO as [FO1 FO2]. subst old.
  destruct (last_octet c Hc31 C) as (l & t & x & EN & HL & HX & HT).
  pose proof (inside_codepoint A c (o2 ++ B) (zlen (utf8_encode c) - 1) Hc31 ltac:(lia)) as (DE & _).
  exists (A ++ utf8_encode c ++ o2 ++ B), (zlen A + zlen (utf8_encode c) - 1).
  split; [|split].
  - unfold it_assign. destruct o1 as [|y o1']; [zl|]. inversion FO1; subst.
    rewrite <- app_assoc. cbn [app]. rewrite read_ascii by assumption. cbn [bind].
    change (A ++ y :: o1' ++ o2 ++ B) with (A ++ (y :: o1') ++ o2 ++ B). apply proxy_assign_sized_ok; assumption.
  - unfold it_assign, proxy_read. unfold it_deref in DE. replace (zlen A + (zlen (utf8_encode c) - 1)) with (zlen A + zlen (utf8_encode c) - 1) in DE by lia.
    rewrite DE. cbn [bind]. rewrite EN, removelast_last.
    replace (A ++ ((l :: t) ++ [x]) ++ o2 ++ B) with ((A ++ l :: t) ++ (x :: o2) ++ B) by (rewrite <- !app_assoc; reflexivity).
    replace (zlen A + zlen ((l :: t) ++ [x]) - 1) with (zlen (A ++ l :: t)) by zl.
    rewrite proxy_assign_sized_ok; [|assumption|rewrite zlen_cons; lia].
    f_equal. f_equal; [rewrite <- app_assoc; reflexivity|zl].
  - rewrite EN, removelast_last. intros X.
    destruct (utf8_encode_chunk d Hd31) as (ld & td & ED & CD & _).
    (* octet number [length (l :: t)] of the left hand side is the lead octet of d *)
    destruct (Nat.ltb_spec (length (l :: t)) (length (utf8_encode d))) as [LT|GE].
    + assert (Y : nth (length (l :: t)) (utf8_encode d) 0 = ld).
      { rewrite <- X at 1. rewrite nth_firstn_lt by assumption.
        rewrite app_nth2 by lia. rewrite Nat.sub_diag, ED. reflexivity. }
      pose proof (encode_last d (length (l :: t)) Hd31 ltac:(cbn [length] in *; lia)) as EL.
      rewrite ED in Y, LT. cbn [length] in LT. cbn [length nth] in Y.
      pose proof (ch_tail _ _ CD) as FT. rewrite Forall_forall in FT.
      assert (I : In ld td) by (rewrite <- Y; apply nth_In; cbn [length]; lia).
      specialize (FT _ I). apply cont_is_cont in FT. rewrite (ch_lead _ _ CD) in FT. discriminate.
    + rewrite ED in X, GE. cbn [app firstn length] in X, GE. injection X as -> X.
      (* same lead octet, hence the same length *)
      destruct (utf8_encode_chunk c Hc31) as (lc & tc & EC & CC & _). rewrite EN in EC. cbn [app] in EC. injection EC as <- <-.
      pose proof (ch_len _ _ CC) as A1. pose proof (ch_len _ _ CD) as A2. rewrite <- A1 in A2. unfold zlen in A2. rewrite app_length in A2. cbn [length] in *. lia.
Qed.

(** ** Replacing codepoints in place (C68) *)
Lemma replace_step A c d B : codepoint31 c -> sized_ok d -> zlen (utf8_encode d) = zlen (utf8_encode c) ->
  proxy_read (A ++ utf8_encode c ++ B) (zlen A) = Ok c /\
  exists q, it_assign (A ++ utf8_encode c ++ B) (zlen A) d = Ok (A ++ utf8_encode d ++ B, q) /\
    it_preinc (A ++ utf8_encode d ++ B) q = Ok (zlen (A ++ utf8_encode c)) /\
    it_preinc (A ++ utf8_encode d ++ B) (zlen A) = Ok (zlen (A ++ utf8_encode c)).
Proof.
  intros Hc Hd L. pose proof (encode_nonempty c) as ZC. pose proof (encode_nonempty d) as ZD.
  pose proof (sized_ok_31 d Hd) as Hd31.
  pose proof (inside_codepoint A c B 0 Hc ltac:(lia)) as (D & _). rewrite Z.add_0_r in D.
  assert (R : proxy_read (A ++ utf8_encode c ++ B) (zlen A) = Ok c).
  { unfold proxy_read. unfold it_deref in D. rewrite D. reflexivity. }
  split; [exact R|]. exists (zlen A + zlen (utf8_encode d) - 1). split; [|split].
  - unfold it_assign. rewrite R. cbn [bind]. apply proxy_assign_sized_ok; [assumption|symmetry; assumption].
  - pose proof (inside_codepoint A d B (zlen (utf8_encode d) - 1) Hd31 ltac:(lia)) as (_ & I & _).
    replace (zlen A + (zlen (utf8_encode d) - 1)) with (zlen A + zlen (utf8_encode d) - 1) in I by lia.
    rewrite I. f_equal. rewrite zlen_app. lia.
  - pose proof (inside_codepoint A d B 0 Hd31 ltac:(lia)) as (_ & I & _). rewrite Z.add_0_r in I.
    rewrite I. f_equal. rewrite zlen_app. lia.
Qed.
Lemma not_at_end A c B e : codepoint31 c -> zlen A + zlen (utf8_encode c) <= e ->
  it_eq (A ++ utf8_encode c ++ B) (zlen A) e = Ok false.
Proof.
  intros Hc He. destruct (utf8_encode_chunk c Hc) as (l & t & EN & CH & _). rewrite EN in *.
  pose proof (eq_chunk A l t B 0 e CH ltac:(zl)) as E. rewrite Z.add_0_r in E. cbn [app]. rewrite E. f_equal.
  rewrite zlen_cons in He. lia.
Qed.
Lemma at_end A c B : codepoint31 c -> it_eq (A ++ utf8_encode c ++ B) (zlen A) (zlen A) = Ok true.
Proof.
  intros Hc. destruct (utf8_encode_chunk c Hc) as (l & t & EN & CH & _). rewrite EN in *.
  pose proof (eq_chunk A l t B 0 (zlen A) CH ltac:(zl)) as E. rewrite Z.add_0_r in E. cbn [app]. rewrite E. f_equal.
  pose proof (zlen_nonneg t). lia.
Qed.
Lemma replace_text f x after cs : Forall codepoint31 cs -> codepoint31 x ->
  (forall c, In c cs -> sized_ok (f c) /\ zlen (utf8_encode (f c)) = zlen (utf8_encode c)) ->
  forall A fuel, (length cs < fuel)%nat ->
  let e := zlen A + zlen (utf8_text cs) in
  replace_codepoints fuel f (A ++ utf8_text cs ++ utf8_encode x ++ after) (zlen A) e
  = Ok (A ++ utf8_text (map f cs) ++ utf8_encode x ++ after) /\
  transform_codepoints fuel f (A ++ utf8_text cs ++ utf8_encode x ++ after) (zlen A) e (zlen A)
  = Ok (A ++ utf8_text (map f cs) ++ utf8_encode x ++ after, e).
Proof.
  intros F Hx. induction F as [|c cs Hc F IH]; intros H A fuel HF e; destruct fuel as [|fuel]; try (cbn in HF; lia).
  - subst e. cbn [utf8_text flat_map map app replace_codepoints transform_codepoints]. change (zlen (@nil Z)) with 0. rewrite Z.add_0_r, at_end by assumption.
    split; reflexivity.
  - destruct (H c (or_introl eq_refl)) as [S L].
    change (utf8_text (c :: cs)) with (utf8_encode c ++ utf8_text cs) in *.
    change (utf8_text (map f (c :: cs))) with (utf8_encode (f c) ++ utf8_text (map f cs)).
    assert (EE : e = zlen (A ++ utf8_encode c) + zlen (utf8_text cs)) by (subst e; rewrite !zlen_app; lia).
    pose proof (zlen_nonneg (utf8_text cs)) as ZT.
    rewrite <- !app_assoc. cbn [replace_codepoints transform_codepoints].
    rewrite (not_at_end A c _ e Hc) by (rewrite EE, zlen_app; lia). cbn [bind].
    destruct (replace_step A c (f c) (utf8_text cs ++ utf8_encode x ++ after) Hc S L) as (R & q & EA & I1 & I2).
    rewrite R. cbn [bind]. rewrite EA. cbn [bind]. rewrite I1, I2. cbn [bind].
    replace (A ++ utf8_encode (f c) ++ utf8_text cs ++ utf8_encode x ++ after)
      with ((A ++ utf8_encode (f c)) ++ utf8_text cs ++ utf8_encode x ++ after) by (rewrite <- app_assoc; reflexivity).
    replace (zlen (A ++ utf8_encode c)) with (zlen (A ++ utf8_encode (f c))) in * by (rewrite !zlen_app; lia).
    destruct (IH (fun d I => H d (or_intror I)) (A ++ utf8_encode (f c)) fuel ltac:(cbn in HF; lia)) as [E1 E2].
    rewrite EE. rewrite E1, E2. split; f_equal; [|f_equal]; rewrite <- app_assoc; reflexivity.
Qed.
