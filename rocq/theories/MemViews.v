(** * Proofs: views of valid text before a continuation octet; what the forward loop depends on *)
From Verif Require Import Prelude Utf8Model TextModel Utf8Spec RangeSpec MemSpec Utf8Proofs LawfulProofs IterProofs ByteProofs BoundsProofs ExactProofs GraphemeBytes RangeProofs MemProofs MemLoops ReadBack.
Require Import ZifyBool ZifyNat.

Lemma reached_text before rest : forall cs2 cs1, Forall codepoint31 cs2 -> Forall codepoint31 cs1 ->
  let mem := before ++ utf8_text (cs1 ++ cs2) ++ rest in
  let e := zlen before + zlen (utf8_text (cs1 ++ cs2)) in
  reached mem e (zlen before) (zlen before + zlen (utf8_text cs1)).
Proof.
  intros cs2 cs1 F2 F1. revert cs2 F2. induction cs1 as [|c cs1 IH] using rev_ind; intros cs2 F2 mem e.
  - cbn [utf8_text flat_map app]. change (zlen (@nil Z)) with 0. rewrite Z.add_0_r. constructor.
  - apply Forall_app in F1. destruct F1 as [F1 FC]. inversion FC as [|? ? C _]; subst.
    specialize (IH F1 (c :: cs2) (Forall_cons _ C F2)). cbv zeta in IH.
    replace (cs1 ++ c :: cs2) with ((cs1 ++ [c]) ++ cs2) in IH by (rewrite <- app_assoc; reflexivity). fold mem e in IH.
    destruct (encode_shape c C) as (l & t & E & A & L & NC & T).
    assert (M : mem = (before ++ utf8_text cs1) ++ l :: (t ++ utf8_text cs2 ++ rest)).
    { unfold mem. rewrite !utf8_text_app. cbn [utf8_text flat_map]. rewrite app_nil_r, E, <- !app_assoc. reflexivity. }
    set (p := zlen before + zlen (utf8_text cs1)) in *.
    assert (P0 : 0 <= p) by (unfold p, zlen; lia).
    assert (O : octet mem p = l) by (rewrite M; unfold p; rewrite <- zlen_app; apply octet_at).
    assert (EX : extent mem p = zlen before + zlen (utf8_text (cs1 ++ [c]))).
    { unfold extent. rewrite O, A, utf8_text_app, zlen_app. cbn [utf8_text flat_map]. rewrite app_nil_r. unfold p. lia. }
    rewrite <- EX. apply (reached_next mem e (zlen before) p); [assumption|apply lead_at; [assumption|rewrite O; assumption]|].
    rewrite EX. unfold e. rewrite (utf8_text_app (cs1 ++ [c]) cs2), zlen_app. unfold zlen. lia.
Qed.
Lemma view_hangs before cs x after : cs <> [] -> Forall codepoint31 cs -> continuation_octet x -> Forall octet_upto_FD (before ++ after) ->
  forall f, let mem := before ++ utf8_text cs ++ x :: after in
  let b := zlen before in let e := zlen before + zlen (utf8_text cs) in
  iterate_codepoints f (utf8_ops mem) b e = OutOfFuel /\ iterate_codepoints_for f (utf8_ops mem) b e = OutOfFuel.
Proof.
  intros NE FC X FU f mem b e. destruct (exists_last NE) as (cs1 & c & ->). pose proof FC as FC'.
  apply Forall_app in FC'. destruct FC' as [F1 F2]. inversion F2 as [|? ? C _]; subst.
  assert (U : Forall octet_upto_FD mem).
  { apply Forall_app in FU. destruct FU as [FB FA]. unfold mem. apply Forall_app. split; [assumption|]. apply Forall_app. split; [apply utf8_text_bytes; assumption|].
    constructor; [|assumption]. unfold continuation_octet, octet_upto_FD in *. lia. }
  assert (LM : zlen mem = e + 1 + zlen after) by (unfold mem, e; zl).
  apply (reached_forever mem U e ltac:(unfold zlen in *; lia) b e ltac:(unfold b, e, zlen; lia)).
  - pose proof (reached_text before (x :: after) [] (cs1 ++ [c]) (Forall_nil _) FC) as R. cbv zeta in R. rewrite app_nil_r in R. exact R.
  - destruct (encode_shape c C) as (l & t & E & A & L & NC & T).
    assert (M : mem = (before ++ utf8_text cs1) ++ l :: (t ++ x :: after)).
    { unfold mem. rewrite !utf8_text_app. cbn [utf8_text flat_map]. rewrite app_nil_r, E, <- !app_assoc. reflexivity. }
    assert (LE : e = zlen (before ++ utf8_text cs1) + 1 + zlen t).
    { unfold e. rewrite utf8_text_app, !zlen_app. cbn [utf8_text flat_map]. rewrite app_nil_r, E. zl. }
    set (A0 := before ++ utf8_text cs1) in *.
    exists (zlen A0). split.
    + split; [unfold zlen in *; lia|]. split; [rewrite M, octet_at; assumption|]. intros k K.
      rewrite M. replace k with (zlen A0 + (k - zlen A0)) by lia. rewrite ExactProofs.octet_app_r by lia.
      replace (k - zlen A0) with ((k - zlen A0 - 1) + 1) by lia. rewrite ExactProofs.octet_tail by lia.
      destruct (Z.eq_dec k e) as [->|].
      * replace (e - zlen A0 - 1) with (zlen t) by lia. rewrite octet_at. assumption.
      * rewrite ExactProofs.octet_app_l by lia. unfold octet. apply Forall_nth; [assumption|]. unfold zlen in *. lia.
    + rewrite M, octet_at, A. rewrite E. unfold zlen in *. cbn [length] in *. lia.
Qed.

(** ** What the forward loop depends on *)
Lemma octets_at_agree mem mem' r n : 0 <= r -> r + Z.of_nat n <= zlen mem -> r + Z.of_nat n <= zlen mem' ->
  (forall k, r <= k < r + Z.of_nat n -> octet mem k = octet mem' k) ->
  firstn n (skipn (Z.to_nat r) mem) = firstn n (skipn (Z.to_nat r) mem').
Proof.
  revert r. induction n as [|n IH]; intros r R L L' A; [reflexivity|]. rewrite (skipn_octet mem r), (skipn_octet mem' r) by lia. cbn [firstn].
  rewrite (A r) by lia. f_equal. apply IH; try lia. intros k K. apply A. lia.
Qed.
Section Agree.
Context (mem mem' : list Z) (U : Forall octet_upto_FD mem) (U' : Forall octet_upto_FD mem') (e r0 : Z).
Context (He : 0 <= e < zlen mem) (He' : e < zlen mem') (L0 : ~ continuation_octet (octet mem r0)) (R0 : 0 <= r0).
Context (A : forall k, r0 <= k <= e -> octet mem k = octet mem' k).
Lemma agree_lead p r : r0 <= p <= e -> closest_lead mem p r -> r0 <= r /\ closest_lead mem' p r.
Proof.
  intros P (R1 & R2 & R3). assert (G : r0 <= r). { destruct (Z.leb_spec r0 r); [assumption|]. exfalso. apply L0. apply R3. lia. }
  split; [assumption|]. split; [lia|]. split; [rewrite <- A by lia; assumption|]. intros k K. rewrite <- A by lia. apply R3. lia.
Qed.
Lemma agree_loop f : forall p, r0 <= p <= e ->
  iterate_codepoints f (utf8_ops mem) p e = iterate_codepoints f (utf8_ops mem') p e /\
  iterate_codepoints_for f (utf8_ops mem) p e = iterate_codepoints_for f (utf8_ops mem') p e.
Proof.
  induction f as [|f IH]; intros p P; [split; reflexivity|].
  destruct (lead_or_not mem p ltac:(lia)) as [(r & R)|N]; [|exfalso; apply L0; apply N; lia].
  destruct (agree_lead p r P R) as (G & R'). pose proof R as (R1 & _).
  assert (EX : extent mem' r = extent mem r) by (unfold extent; rewrite A by lia; reflexivity).
  destruct (step_lead mem U e He p r f ltac:(lia) R) as (S1 & S2). destruct (step_lead mem' U' e ltac:(lia) p r f ltac:(lia) R') as (S1' & S2').
  cbv zeta in *. rewrite EX in *. destruct (Z.ltb_spec e (extent mem r)) as [Q|Q].
  - destruct (S1 Q) as (-> & ->). destruct (S1' Q) as (-> & ->). split; reflexivity.
  - destruct (S2 Q) as (-> & ->). destruct (S2' Q) as (-> & ->). pose proof (announced_len_range (octet mem r)).
    destruct (IH (extent mem r) ltac:(unfold extent in *; lia)) as (-> & ->).
    replace (value_at mem' r) with (value_at mem r). { rewrite <- (A r) by lia. split; reflexivity. }
    unfold value_at, octets_at. rewrite <- (A r) by lia. f_equal. unfold extent in Q.
    apply octets_at_agree; try lia. intros k K. apply A. lia.
Qed.
End Agree.
