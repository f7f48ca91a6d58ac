(** * Proofs: encoding a text is correct exactly when every codepoint is encoded correctly *)
From Verif Require Import Prelude Utf8Model TextModel Utf8Spec Utf8Proofs LawfulProofs IterProofs ByteProofs EncodeProofs AppendProofs.
Require Import ZifyBool ZifyNat.

(** A wrong encoding is not even a prefix (nor an extension) of the right one. *)
Lemma encode_one_apart c l r r' : codepoint31 c -> ~ sized_ok c -> utf8_encode_one c = Ok l ->
  l ++ r <> utf8_encode c ++ r'.
Proof.
  unfold codepoint31. change (2 ^ 31) with 2147483648. intros Hc N E EQ.
  destruct (Z.eq_dec c 0) as [->|Hc0]; [vm_compute in E; discriminate|].
  destruct (encoded_size_ranges c ltac:(lia)) as (n & ES & N1 & N2 & N3 & N4 & N5).
  unfold sized_ok in N.
  assert (Hn : 2 <= n <= 5) by lia.
  rewrite (encode_one_multi c n ES Hn) in E by lia.
  destruct (Z.ltb_spec (first_octet n c) 254); [|discriminate].
  injection E as E.
  assert (LE : Z.of_nat (length (utf8_encode c)) = n + 1) by (unfold utf8_encode; zcases; cbn [length]; lia).
  pose proof (announced_len_range (first_octet n c)) as AR.
  assert (LC : length (code_octets n c) = 6%nat).
  { unfold code_octets. cbn [length]. rewrite app_length, conts_length, repeat_length. lia. }
  destruct (Z.le_gt_cases (announced_len (first_octet n c)) n) as [K|K].
  - destruct (utf8_encode_chunk c ltac:(unfold codepoint31; lia)) as (h & t & EC & C & _).
    pose proof (ch_len _ _ C) as CL. rewrite EC in LE, EQ. cbn [length] in LE.
    assert (HD : first_octet n c = h).
    { subst l. replace (Z.to_nat (announced_len (first_octet n c))) with (S (Z.to_nat (announced_len (first_octet n c) - 1))) in EQ by lia.
      unfold code_octets in EQ. cbn [firstn app] in EQ. injection EQ as EQ _. assumption. }
    rewrite <- HD in CL. unfold zlen in CL. lia.
  - assert (LL : (Z.to_nat n < length l)%nat).
    { subst l. rewrite firstn_length. lia. }
    assert (NL : nth (Z.to_nat n) l 0 = 0).
    { subst l. assert (Z0 : nth_error (code_octets n c) (Z.to_nat n) = Some 0).
      { unfold code_octets. replace (Z.to_nat n) with (S (Z.to_nat (n - 1))) by lia. cbn [nth_error].
        rewrite nth_error_app2 by (rewrite conts_length; lia). rewrite conts_length, Nat.sub_diag.
        replace (Z.to_nat (6 - n)) with (S (Z.to_nat (5 - n))) by lia. reflexivity. }
      apply nth_error_nth. rewrite nth_error_firstn by lia. assumption. }
    pose proof (encode_last c (Z.to_nat n) ltac:(unfold codepoint31; lia) ltac:(lia)) as B.
    assert (X : nth (Z.to_nat n) (l ++ r) 0 = nth (Z.to_nat n) (utf8_encode c ++ r') 0) by (rewrite EQ; reflexivity).
    rewrite !app_nth1 in X by lia. lia.
Qed.
Lemma append_extends cs : forall out s, utf8_append_from_utf32ne out cs = Ok s -> exists r, s = out ++ r.
Proof.
  induction cs as [|c cs IH]; intros out s E; cbn [utf8_append_from_utf32ne] in E.
  - injection E as <-. exists []. rewrite app_nil_r. reflexivity.
  - destruct (utf8_encode_one c) as [l| |]; try discriminate. cbn [bind] in E. destruct (IH _ _ E) as (r & ->).
    exists (l ++ r). rewrite app_assoc. reflexivity.
Qed.
(** Also for a piecewise encoding of the text. *)
Lemma append_text_iff cs : Forall codepoint31 cs -> forall out,
  (utf8_append_from_utf32ne out cs = Ok (out ++ utf8_text cs) <-> Forall sized_ok cs).
Proof.
  intros F. induction F as [|c cs Hc _ IH]; intros out.
  - split; [constructor|]. intros _. cbn. rewrite app_nil_r. reflexivity.
  - split; [|apply append_from_utf32ne_ok]. cbn [utf8_append_from_utf32ne utf8_text flat_map]. intros E.
    destruct (utf8_encode_one c) as [l| |] eqn:EO; try discriminate. cbn [bind] in E.
    destruct (append_extends _ _ _ E) as (r & X). rewrite <- app_assoc in X. apply app_inv_head in X.
    assert (S : sized_ok c).
    { assert (D : sized_ok c \/ ~ sized_ok c) by (unfold sized_ok; lia). destruct D as [D|D]; [assumption|].
      exfalso. eapply encode_one_apart; [exact Hc|exact D|exact EO|symmetry; exact X]. }
    constructor; [assumption|]. rewrite (encode_one_sized_ok c S) in EO. injection EO as <-.
    apply (IH (out ++ utf8_encode c)). rewrite <- app_assoc. exact E.
Qed.
