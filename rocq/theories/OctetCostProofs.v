(** * Proofs: the octets read by the UTF-8 iterators *)
From Verif Require Import Prelude DataTables PropsModel Utf8Model TextModel Utf8Spec RangeSpec MemSpec GraphemeSpec TextSpec
  Utf8Proofs LawfulProofs IterProofs ByteProofs BoundsProofs MemProofs CostModel CostProofs OctetCostModel.
Require Import ZifyBool ZifyNat.

(** ** Erasure *)
Lemma erase_rewind_loop mem : forall fuel p ret, erase (rewind_loop_o fuel mem p ret) = rewind_loop fuel mem p ret.
Proof.
  induction fuel as [|f IH]; intros p ret; [reflexivity|]. cbn [rewind_loop_o rewind_loop]. rewrite erase_bind, erase_one.
  apply bind_ext; [reflexivity|]. intros b. destruct (is_codepoint_continuation b); [|reflexivity].
  rewrite erase_bind, erase_free. apply bind_ext; [reflexivity|]. intros q. apply IH.
Qed.
Lemma erase_rewind mem p : erase (rewind_to_start_of_codepoint_o mem p) = rewind_to_start_of_codepoint mem p.
Proof. apply erase_rewind_loop. Qed.
(** Reading an octet that is read again next changes nothing. *)
Lemma extra_read {B} mem p (f : bool * Z -> res B) :
  bind (rd mem p) (fun _ => bind (rewind_to_start_of_codepoint mem p) f) = bind (rewind_to_start_of_codepoint mem p) f.
Proof. unfold rewind_to_start_of_codepoint. cbn [rewind_loop]. destruct (rd mem p); reflexivity. Qed.
Lemma erase_forward mem p : erase (forward_one_codepoint_o mem p) = forward_one_codepoint mem p.
Proof.
  unfold forward_one_codepoint_o, forward_one_codepoint. rewrite erase_bind, erase_one. rewrite <- (extra_read mem p).
  apply bind_ext; [reflexivity|]. intros _. rewrite erase_bind, erase_rewind. apply bind_ext; [reflexivity|]. intros [r q].
  rewrite erase_bind, erase_one. apply bind_ext; [reflexivity|]. intros b. rewrite erase_bind, erase_free. apply bind_ext; [reflexivity|].
  intros n. apply erase_free.
Qed.
Lemma erase_backward mem p : erase (rewind_one_codepoint_o mem p) = rewind_one_codepoint mem p.
Proof.
  unfold rewind_one_codepoint_o, rewind_one_codepoint. rewrite erase_bind, erase_one. rewrite <- (extra_read mem p).
  apply bind_ext; [reflexivity|]. intros _. rewrite erase_bind, erase_rewind. apply bind_ext; [reflexivity|]. intros [r q].
  rewrite erase_bind, erase_free. apply bind_ext; [reflexivity|]. intros q'. rewrite erase_bind, erase_rewind. apply bind_ext; [reflexivity|].
  intros [r' q'']. reflexivity.
Qed.
Lemma erase_decode mem : forall n copy v, erase (decode_loop_o n mem copy v) = decode_loop n mem copy v.
Proof.
  induction n as [|n IH]; intros copy v; [reflexivity|]. cbn [decode_loop_o decode_loop]. rewrite erase_bind, erase_free.
  apply bind_ext; [reflexivity|]. intros q. rewrite erase_bind, erase_one. apply bind_ext; [reflexivity|]. intros b.
  rewrite erase_bind, erase_free. apply bind_ext; [reflexivity|]. intros w. apply IH.
Qed.
Lemma erase_deref mem p : erase (current_codepoint_o mem p) = current_codepoint mem p.
Proof.
  unfold current_codepoint_o, current_codepoint. rewrite erase_bind, erase_one. apply bind_ext; [reflexivity|]. intros x.
  destruct (is_7bit_character x); [reflexivity|]. rewrite erase_bind, erase_rewind. apply bind_ext; [reflexivity|]. intros [mv q].
  rewrite erase_bind. apply bind_ext; [destruct mv; [apply erase_one|reflexivity]|]. intros y.
  rewrite erase_bind, erase_free. apply bind_ext; [reflexivity|]. intros n. destruct (7 - n <? 0); [reflexivity|]. cbv zeta.
  rewrite erase_bind, erase_decode. apply bind_ext; reflexivity.
Qed.
Lemma erase_eq mem p q : erase (it_eq_o mem p q) = it_eq mem p q.
Proof.
  unfold it_eq_o, it_eq. rewrite erase_bind, erase_one. rewrite <- (extra_read mem p).
  apply bind_ext; [reflexivity|]. intros _. rewrite erase_bind, erase_rewind. apply bind_ext; [reflexivity|]. intros [r c].
  rewrite erase_bind, erase_one. apply bind_ext; [reflexivity|]. intros b. rewrite erase_bind, erase_free. apply bind_ext; [reflexivity|].
  intros n. apply erase_free.
Qed.
Lemma erase_check_loop mem b : forall n e w, erase (check_loop_o n mem b e w) = check_loop n mem b e w.
Proof.
  induction n as [|n IH]; intros e w; [reflexivity|]. cbn [check_loop_o check_loop]. destruct (e =? b); [reflexivity|].
  rewrite erase_bind, erase_one. apply bind_ext; [reflexivity|]. intros x. rewrite erase_bind, erase_free. apply bind_ext; [reflexivity|].
  intros s. destruct (_ && _); [reflexivity|]. rewrite erase_bind, erase_free. apply bind_ext; [reflexivity|]. intros q. apply IH.
Qed.
Lemma erase_check mem b e : erase (bounds_check_o mem b e) = bounds_check mem b e.
Proof.
  unfold bounds_check_o, bounds_check. rewrite erase_bind, erase_one. apply bind_ext; [reflexivity|]. intros x.
  destruct (is_codepoint_continuation x); [reflexivity|]. apply erase_check_loop.
Qed.

(** ** Counts *)
Lemma cbind_ok {A B} (m : counted A) (f : A -> counted B) b n : cbind m f = Ok (b, n) ->
  exists a k l, m = Ok (a, k) /\ f a = Ok (b, l) /\ n = (k + l)%nat.
Proof.
  unfold cbind. destruct m as [[a k]|u|]; try discriminate. destruct (f a) as [[c l]|u|] eqn:E; try discriminate.
  intros [= <- <-]. exists a, k, l. auto.
Qed.
Lemma one_ok {A} (m : res A) a k : one m = Ok (a, k) -> m = Ok a /\ k = 1%nat.
Proof. destruct m; try discriminate. intros [= <- <-]. auto. Qed.
Lemma free_ok {A} (m : res A) a k : free m = Ok (a, k) -> m = Ok a /\ k = 0%nat.
Proof. destruct m; try discriminate. intros [= <- <-]. auto. Qed.
Lemma counted_ok {A} (m : counted A) a : erase m = Ok a -> exists k, m = Ok (a, k).
Proof. destruct m as [[x k]|u|]; try discriminate. intros [= <-]. eauto. Qed.
Lemma erase_ok {A} (m : counted A) a k : m = Ok (a, k) -> erase m = Ok a.
Proof. intros ->. reflexivity. Qed.

Ltac split_ok H :=
  repeat match type of H with
  | cbind _ _ = Ok _ => let a := fresh "a" in let k := fresh "k" in let l := fresh "l" in let E := fresh "E" in let N := fresh "N" in
      apply cbind_ok in H; destruct H as (a & k & l & E & H & N);
      try (apply one_ok in E; destruct E as [E ->]); try (apply free_ok in E; destruct E as [E ->])
  end.

Lemma rewind_count mem : forall fuel p ret r q k, rewind_loop_o fuel mem p ret = Ok ((r, q), k) ->
  q <= p /\ k = S (Z.to_nat (p - q)).
Proof.
  induction fuel as [|f IH]; intros p ret r q k H; [discriminate|]. cbn [rewind_loop_o] in H.
  apply cbind_ok in H. destruct H as (b & k1 & l1 & E & H & ->). apply one_ok in E. destruct E as [_ ->].
  destruct (is_codepoint_continuation b).
  - apply cbind_ok in H. destruct H as (p' & k2 & l2 & E & H & ->). apply free_ok in E. destruct E as [E ->].
    apply padd_inv in E. apply IH in H. lia.
  - injection H as -> -> <-. lia.
Qed.
Lemma rewind_at mem p q : Forall is_byte mem -> 0 <= p < zlen mem -> closest_lead mem p q ->
  rewind_to_start_of_codepoint_o mem p = Ok ((q <? p, q), S (Z.to_nat (p - q))).
Proof.
  intros F P C. assert (E : erase (rewind_to_start_of_codepoint_o mem p) = Ok (q <? p, q)) by (rewrite erase_rewind; apply rewind_lead; assumption).
  apply counted_ok in E. destruct E as (k & E). rewrite E. destruct (rewind_count _ _ _ _ _ _ _ E) as [_ ->]. reflexivity.
Qed.
Lemma lead_inside mem p q : 0 <= p < zlen mem -> closest_lead mem p q -> 0 <= q < zlen mem.
Proof. intros P (Q & _). lia. Qed.

(** ++, ==, -- and * at any octet of any memory. *)
Lemma forward_count mem p q x : Forall is_byte mem -> 0 <= p < zlen mem -> closest_lead mem p q ->
  forward_one_codepoint mem p = Ok x -> forward_one_codepoint_o mem p = Ok (x, Z.to_nat (p - q) + 3)%nat.
Proof.
  intros F P C H. rewrite <- erase_forward in H. apply counted_ok in H. destruct H as (k & H). rewrite H. f_equal. f_equal.
  unfold forward_one_codepoint_o in H. rewrite (rewind_at mem p q F P C) in H.
  rewrite rd_octet in H by assumption. cbn [one cbind] in H. rewrite rd_octet in H by (eapply lead_inside; eassumption). cbn [one cbind] in H.
  destruct (codepoint_size (octet mem q)) as [n| |]; cbn in H; try discriminate. destruct (padd mem q n); cbn in H; try discriminate.
  injection H as _ <-. lia.
Qed.
Lemma eq_count mem p q y x : Forall is_byte mem -> 0 <= p < zlen mem -> closest_lead mem p q ->
  it_eq mem p y = Ok x -> it_eq_o mem p y = Ok (x, Z.to_nat (p - q) + 3)%nat.
Proof.
  intros F P C H. rewrite <- erase_eq in H. apply counted_ok in H. destruct H as (k & H). rewrite H. f_equal. f_equal.
  unfold it_eq_o in H. rewrite (rewind_at mem p q F P C) in H.
  rewrite rd_octet in H by assumption. cbn [one cbind] in H. rewrite rd_octet in H by (eapply lead_inside; eassumption). cbn [one cbind] in H.
  destruct (codepoint_size (octet mem q)) as [n| |]; cbn in H; try discriminate. destruct (eq_loop _ mem q y); cbn in H; try discriminate.
  injection H as _ <-. lia.
Qed.
Lemma backward_count mem p q q' : Forall is_byte mem -> 0 <= p < zlen mem -> closest_lead mem p q -> closest_lead mem (q - 1) q' ->
  rewind_one_codepoint_o mem p = Ok (q', Z.to_nat (p - q') + 2)%nat.
Proof.
  intros F P C C'. pose proof C as (Q & _). pose proof C' as (Q' & _). unfold rewind_one_codepoint_o. rewrite rd_octet by assumption. cbn [one cbind].
  rewrite (rewind_at mem p q F P C). cbn [cbind]. rewrite padd_ok by lia. cbn [free cbind]. replace (q + -1) with (q - 1) by lia.
  rewrite (rewind_at mem (q - 1) q' F ltac:(lia) C'). cbn [cbind cret]. f_equal. f_equal. lia.
Qed.
Lemma decode_count mem : forall n copy v x k, decode_loop_o n mem copy v = Ok (x, k) -> k = n.
Proof.
  induction n as [|n IH]; intros copy v x k H; cbn [decode_loop_o] in H; [injection H as _ <-; reflexivity|].
  apply cbind_ok in H. destruct H as (a & k1 & l1 & E & H & ->). apply free_ok in E. destruct E as [_ ->].
  apply cbind_ok in H. destruct H as (a' & k2 & l2 & E & H & ->). apply one_ok in E. destruct E as [_ ->].
  apply cbind_ok in H. destruct H as (a'' & k3 & l3 & E & H & ->). apply free_ok in E. destruct E as [_ ->].
  apply IH in H. lia.
Qed.
Lemma deref_count mem p q x : Forall is_byte mem -> 0 <= p < zlen mem -> closest_lead mem p q ->
  current_codepoint mem p = Ok x ->
  current_codepoint_o mem p = Ok (x, if octet mem p <? 128 then 1%nat
    else (Z.to_nat (p - q) + (if (q <? p)%Z then 1 else 0) + 1 + Z.to_nat (announced_len (octet mem q)))%nat).
Proof.
  intros F P C H. rewrite <- erase_deref in H. apply counted_ok in H. destruct H as (k & H). rewrite H. f_equal. f_equal.
  unfold current_codepoint_o in H. rewrite rd_octet in H by assumption. cbn [one cbind] in H.
  rewrite is_7bit_spec in H by (apply octet_byte; assumption). destruct (octet mem p <? 128); [cbn in H; injection H as _ <-; reflexivity|].
  rewrite (rewind_at mem p q F P C) in H. cbn [cbind] in H.
  rewrite (rd_octet mem q) in H by (eapply lead_inside; eassumption).
  assert (X : exists k0, (if q <? p then one (Ok (octet mem q)) else cret (octet mem p)) = Ok (octet mem q, k0) /\ k0 = if q <? p then 1%nat else 0%nat).
  { destruct (Z.ltb_spec q p) as [L|L]; eexists; (split; [|reflexivity]); [reflexivity|]. assert (p = q) as -> by (destruct C; lia). reflexivity. }
  destruct X as (k0 & X & K0). rewrite X in H. cbn [cbind] in H.
  rewrite codepoint_size_spec in H by (apply octet_byte; assumption). cbn [free cbind] in H. cbv zeta in H.
  destruct (7 - announced_len (octet mem q) <? 0); [discriminate|].
  destruct (decode_loop_o _ mem q _) as [[v kd]|u|] eqn:D; cbn in H; try discriminate. apply decode_count in D. injection H as _ <-. subst kd k0.
  pose proof (announced_len_range (octet mem q)). lia.
Qed.

(** check looks at no more than 7 octets. *)
Lemma check_loop_count mem b : forall n e w x k, check_loop_o n mem b e w = Ok (x, k) -> (k <= n)%nat.
Proof.
  induction n as [|n IH]; intros e w x k H; cbn [check_loop_o] in H; [injection H as _ <-; lia|].
  destruct (e =? b); [injection H as _ <-; lia|].
  apply cbind_ok in H. destruct H as (a & k1 & l1 & E & H & ->). apply one_ok in E. destruct E as [_ ->].
  apply cbind_ok in H. destruct H as (a' & k2 & l2 & E & H & ->). apply free_ok in E. destruct E as [_ ->].
  destruct (_ && _); [injection H as _ <-; lia|].
  apply cbind_ok in H. destruct H as (a'' & k3 & l3 & E & H & ->). apply free_ok in E. destruct E as [_ ->].
  apply IH in H. lia.
Qed.
Lemma check_count mem b e x k : bounds_check_o mem b e = Ok (x, k) -> (1 <= k <= 7)%nat.
Proof.
  intros H. unfold bounds_check_o in H. apply cbind_ok in H. destruct H as (a & k1 & l1 & E & H & ->). apply one_ok in E. destruct E as [_ ->].
  destruct (is_codepoint_continuation a); [injection H as _ <-; lia|]. apply check_loop_count in H. lia.
Qed.

(** ** Valid text *)
Lemma chunk_lead A lead tail B j : chunk lead tail -> 0 <= j <= zlen tail ->
  closest_lead (A ++ lead :: tail ++ B) (zlen A + j) (zlen A) /\ octet (A ++ lead :: tail ++ B) (zlen A) = lead /\
  (octet (A ++ lead :: tail ++ B) (zlen A + j) < 128 -> j = 0).
Proof.
  intros [Hb Hl Hm HF Hlen] Hj. pose proof (zlen_nonneg A).
  assert (O : octet (A ++ lead :: tail ++ B) (zlen A) = lead).
  { unfold octet, zlen. rewrite Nat2Z.id, app_nth2, Nat.sub_diag by lia. reflexivity. }
  assert (T : forall k, 0 < k <= zlen tail -> continuation_octet (octet (A ++ lead :: tail ++ B) (zlen A + k))).
  { intros k Hk. unfold octet. rewrite app_nth2 by (unfold zlen in *; lia).
    replace (Z.to_nat (zlen A + k) - length A)%nat with (S (Z.to_nat (k - 1))) by (unfold zlen in *; lia). cbn [nth].
    rewrite app_nth1 by (unfold zlen in *; lia). rewrite Forall_forall in HF. apply HF, nth_In. unfold zlen in *; lia. }
  split; [|split; [exact O|]].
  - split; [lia|]. rewrite O. split; [intros C; apply is_cont_iff in C; congruence|].
    intros k Hk. replace k with (zlen A + (k - zlen A)) by lia. apply T. lia.
  - intros L. destruct (Z.eq_dec j 0); [assumption|]. specialize (T j ltac:(lia)). unfold continuation_octet in T. lia.
Qed.
Definition ascii_count (cs : list Z) : nat := length (List.filter (fun c => c <? 128) cs).
Lemma small_encode c : codepoint31 c -> forall lead tail, utf8_encode c = lead :: tail -> (lead <? 128) = (c <? 128).
Proof.
  intros H lead tail E. destruct (utf8_encode_chunk c H) as (l & t & E' & CH & V). rewrite E in E'. injection E' as <- <-.
  destruct (Z.ltb_spec c 128) as [L|L].
  - unfold utf8_encode in E. replace (c <? 0x80) with true in E by lia. injection E as <- _. lia.
  - destruct (Z.ltb_spec lead 128) as [G|G]; [|reflexivity]. exfalso. destruct CH as [Hb Hl Hm HF Hlen].
    assert (tail = []) as ->.
    { unfold announced_len in Hlen. destruct (Z.ltb_spec lead 192); [|lia]. destruct tail; [reflexivity|]. unfold zlen in Hlen. cbn [length] in Hlen. lia. }
    unfold chunk_value, lead_bits in V. cbn [fold_left] in V. destruct (Z.ltb_spec lead 128); lia.
Qed.
Lemma bytes_around A cs B : Forall codepoint31 cs -> Forall is_byte A -> Forall is_byte B -> Forall is_byte (A ++ utf8_text cs ++ B).
Proof. intros H FA FB. apply Forall_app. split; [assumption|]. apply Forall_app. split; [apply upto_FD_byte, utf8_text_bytes; assumption|assumption]. Qed.
(** The three operations at the start of a codepoint of a text. *)
Lemma at_start A c B mem : codepoint31 c -> mem = A ++ utf8_encode c ++ B -> Forall is_byte mem ->
  current_codepoint_o mem (zlen A) = Ok ((c, zlen A), if c <? 128 then 1%nat else S (length (utf8_encode c))) /\
  forward_one_codepoint_o mem (zlen A) = Ok (zlen A + zlen (utf8_encode c), 3%nat) /\
  (forall e, e < zlen A \/ zlen A + zlen (utf8_encode c) <= e -> it_eq_o mem (zlen A) e = Ok (false, 3%nat)) /\
  closest_lead mem (zlen A + zlen (utf8_encode c) - 1) (zlen A) /\ zlen A + zlen (utf8_encode c) <= zlen mem.
Proof.
  intros H E F. destruct (utf8_encode_chunk c H) as (lead & tail & EN & CH & V). pose proof (small_encode c H lead tail EN) as SE.
  rewrite EN in *. cbn [app] in E. pose proof (zlen_nonneg A) as HA. pose proof (zlen_nonneg B) as HB. pose proof (zlen_nonneg tail) as HT.
  assert (LM : zlen mem = zlen A + 1 + zlen tail + zlen B) by (rewrite E, zlen_app, zlen_cons, zlen_app; lia).
  rewrite zlen_cons.
  destruct (chunk_lead A lead tail B 0 CH ltac:(lia)) as (C0 & O & _). destruct (chunk_lead A lead tail B (zlen tail) CH ltac:(lia)) as (C1 & _ & _).
  rewrite Z.add_0_r in C0. rewrite <- E in *.
  pose proof (deref_chunk A lead tail B 0 CH ltac:(lia)) as D. pose proof (forward_chunk A lead tail B 0 CH ltac:(lia)) as W.
  rewrite Z.add_0_r in D, W. rewrite <- E in D, W. rewrite V in D.
  split; [|split; [|split; [|split]]].
  - rewrite (deref_count mem (zlen A) (zlen A) _ F ltac:(lia) C0 D). rewrite O, SE, Z.ltb_irrefl, Z.sub_diag. f_equal. f_equal.
    destruct (c <? 128); [reflexivity|]. rewrite <- (ch_len _ _ CH). cbn [length]. unfold zlen. lia.
  - rewrite (forward_count mem (zlen A) (zlen A) _ F ltac:(lia) C0 W). rewrite Z.sub_diag. f_equal. f_equal. lia.
  - intros e He. rewrite (eq_count mem (zlen A) (zlen A) e false F ltac:(lia) C0); [rewrite Z.sub_diag; reflexivity|].
    pose proof (eq_chunk A lead tail B 0 e CH ltac:(lia)) as Q. rewrite Z.add_0_r, <- E in Q. rewrite Q. f_equal. lia.
  - replace (zlen A + (1 + zlen tail) - 1) with (zlen A + zlen tail) by lia. exact C1.
  - lia.
Qed.
Lemma at_end mem e : Forall is_byte mem -> 0 <= e < zlen mem -> ~ continuation_octet (octet mem e) -> it_eq_o mem e e = Ok (true, 3%nat).
Proof.
  intros F E N. assert (C : closest_lead mem e e) by (split; [lia|]; split; [exact N|]; intros; lia).
  rewrite (eq_count mem e e e true F E C); [rewrite Z.sub_diag; reflexivity|].
  unfold it_eq. rewrite (rewind_lead mem F e e E C). cbn [bind]. rewrite rd_octet by assumption. cbn [bind].
  rewrite codepoint_size_spec by (apply octet_byte; assumption). cbn [bind]. pose proof (announced_len_range (octet mem e)).
  destruct (Z.to_nat (announced_len (octet mem e))) eqn:Q; [lia|]. cbn [eq_loop]. rewrite Z.eqb_refl. reflexivity.
Qed.
Lemma text_cons c cs : utf8_text (c :: cs) = utf8_encode c ++ utf8_text cs. Proof. reflexivity. Qed.
Lemma forward_total : forall cs A B mem fuel, Forall codepoint31 cs -> mem = A ++ utf8_text cs ++ B -> Forall is_byte mem ->
  zlen A + zlen (utf8_text cs) < zlen mem -> ~ continuation_octet (octet mem (zlen A + zlen (utf8_text cs))) -> (length cs < fuel)%nat ->
  exists k, iterate_codepoints_for_o fuel (utf8_cops mem) (zlen A) (zlen A + zlen (utf8_text cs)) = Ok (cs, k) /\
    (k + ascii_count cs = 7 * length cs + length (utf8_text cs) + 3)%nat.
Proof.
  induction cs as [|c cs IH]; intros A B mem fuel H E F Le N Hf; (destruct fuel as [|fuel]; [lia|]).
  - change (utf8_text []) with (@nil Z) in *. rewrite zlen_nil, Z.add_0_r in *. exists 3%nat. split; [|reflexivity]. cbn [iterate_codepoints_for_o]. unfold co_neq. cbn [co_eq utf8_cops].
    rewrite at_end by (try assumption; pose proof (zlen_nonneg A); lia). reflexivity.
  - inversion H as [|? ? Hc Hcs]; subst. rewrite text_cons in *. rewrite <- app_assoc in *.
    set (mem := A ++ utf8_encode c ++ utf8_text cs ++ B) in *.
    destruct (at_start A c (utf8_text cs ++ B) mem Hc eq_refl F) as (D & W & Q & _ & _).
    rewrite zlen_app in *. pose proof (zlen_nonneg (utf8_text cs)) as Z1. cbn [length] in Hf.
    destruct (IH (A ++ utf8_encode c) B mem fuel Hcs) as (k & I & K); try assumption.
    + unfold mem. rewrite <- app_assoc. reflexivity.
    + rewrite zlen_app. lia.
    + rewrite zlen_app. rewrite <- Z.add_assoc. exact N.
    + lia.
    + rewrite zlen_app, <- Z.add_assoc in I. cbn [iterate_codepoints_for_o]. unfold co_neq. cbn [co_eq co_deref co_step utf8_cops].
      rewrite Q by lia. cbn [cbind cret negb]. rewrite D. cbn [cbind]. rewrite W. cbn [cbind]. rewrite I. cbn [cbind cret].
      eexists. split; [reflexivity|]. unfold ascii_count in *. cbn [List.filter length]. rewrite app_length.
      destruct (Z.ltb_spec c 128) as [L|L]; cbn [length]; [|lia].
      assert (length (utf8_encode c) = 1%nat) by (unfold utf8_encode; replace (c <? 0x80) with true by lia; reflexivity). lia.
Qed.
Lemma backward_total : forall cs A d B mem fuel, Forall codepoint31 cs -> codepoint31 d -> mem = A ++ utf8_text cs ++ utf8_encode d ++ B -> Forall is_byte mem ->
  (length cs < fuel)%nat ->
  exists k, iterate_backwards_o fuel (utf8_cops mem) (zlen A + zlen (utf8_text cs)) (zlen A) = Ok (rev cs, k) /\
    (k + ascii_count cs = 6 * length cs + 2 * length (utf8_text cs) + 3)%nat.
Proof.
  induction cs as [|x cs IH] using rev_ind; intros A d B mem fuel H Hd E F Hf; (destruct fuel as [|fuel]; [lia|]);
    pose proof (zlen_nonneg A) as ZA.
  - change (utf8_text []) with (@nil Z) in *. rewrite zlen_nil, Z.add_0_r. cbn [app] in E. exists 3%nat. split; [|reflexivity].
    destruct (at_start A d B mem Hd E F) as (_ & _ & _ & (P & N & _) & L).
    assert (0 < zlen (utf8_encode d)) by (destruct (utf8_encode_chunk d Hd) as (l & t & -> & _); rewrite zlen_cons; pose proof (zlen_nonneg t); lia).
    cbn [iterate_backwards_o]. unfold co_neq. cbn [co_eq utf8_cops]. rewrite at_end by (try assumption; lia). reflexivity.
  - apply Forall_app in H. destruct H as [Hcs Hc]. apply Forall_inv in Hc.
    rewrite utf8_text_app in E. change (utf8_text [x]) with (utf8_encode x ++ []) in E. rewrite app_nil_r in E. rewrite <- app_assoc in E.
    assert (TX : utf8_text (cs ++ [x]) = utf8_text cs ++ utf8_encode x) by (rewrite utf8_text_app; cbn; rewrite app_nil_r; reflexivity).
    rewrite TX, zlen_app.
    assert (E1 : mem = (A ++ utf8_text cs) ++ utf8_encode x ++ utf8_encode d ++ B) by (rewrite E, <- app_assoc; reflexivity).
    assert (E2 : mem = (A ++ utf8_text cs ++ utf8_encode x) ++ utf8_encode d ++ B) by (rewrite E, <- !app_assoc; reflexivity).
    destruct (at_start _ d _ mem Hd E2 F) as (_ & _ & Q & (P2 & N2 & _) & L2).
    destruct (at_start _ x _ mem Hc E1 F) as (D & _ & _ & C1 & L1).
    rewrite app_length in Hf. cbn [length] in Hf.
    destruct (IH A x (utf8_encode d ++ B) mem fuel Hcs Hc E F ltac:(lia)) as (k & I & K).
    rewrite !zlen_app in *. pose proof (zlen_nonneg (utf8_text cs)) as Z1.
    assert (Z2 : 0 < zlen (utf8_encode x)) by (destruct (utf8_encode_chunk x Hc) as (l & t & -> & _); rewrite zlen_cons; pose proof (zlen_nonneg t); lia).
    assert (Z3 : 0 < zlen (utf8_encode d)) by (destruct (utf8_encode_chunk d Hd) as (l & t & -> & _); rewrite zlen_cons; pose proof (zlen_nonneg t); lia).
    set (p := zlen A + (zlen (utf8_text cs) + zlen (utf8_encode x))) in *.
    assert (CP : closest_lead mem p p) by (split; [lia|]; split; [exact N2|]; intros; lia).
    cbn [iterate_backwards_o]. unfold co_neq. cbn [co_eq co_deref co_dec utf8_cops]. rewrite Q by lia. cbn [cbind cret negb].
    rewrite (backward_count mem p p (zlen A + zlen (utf8_text cs)) F ltac:(lia) CP) by (replace (p - 1) with (zlen A + zlen (utf8_text cs) + zlen (utf8_encode x) - 1) by lia; exact C1).
    cbn [cbind]. rewrite D. cbn [cbind]. rewrite I. cbn [cbind cret]. eexists. split; [rewrite rev_app_distr; reflexivity|].
    unfold ascii_count in *. rewrite filter_app, !app_length. cbn [List.filter length].
    replace (Z.to_nat (p - (zlen A + zlen (utf8_text cs)))) with (length (utf8_encode x)) by (unfold zlen in *; lia).
    destruct (Z.ltb_spec x 128) as [L|L]; cbn [length]; [|lia].
    assert (length (utf8_encode x) = 1%nat) by (unfold utf8_encode; replace (x <? 0x80) with true by lia; reflexivity). lia.
Qed.

(** ** Any computation over iterators: at most [w] octets for each operation *)
Definition within (w : nat) {A} (m m1 : counted A) : Prop :=
  match m, m1 with
  | Ok (a, k), Ok (b, n) => a = b /\ (k <= w * n)%nat
  | UB u, UB v => u = v
  | OutOfFuel, OutOfFuel => True
  | _, _ => False
  end.
Lemma within_bind w {A B} (m m1 : counted A) (f f1 : A -> counted B) : within w m m1 -> (forall a, within w (f a) (f1 a)) ->
  within w (cbind m f) (cbind m1 f1).
Proof.
  intros H G. destruct m as [[a k]|u|], m1 as [[b n]|v|]; cbn in H; try contradiction; [|exact H|exact I].
  destruct H as [<- K]. specialize (G a). cbn. destruct (f a) as [[x l]|u|], (f1 a) as [[y o]|v|]; cbn in G; try contradiction; [|exact G|exact I].
  destruct G as [<- L]. cbn. split; [reflexivity|nia].
Qed.
Lemma within_ret w {A} (a : A) : within w (cret a) (cret a). Proof. split; [reflexivity|lia]. Qed.
Lemma within_free w {A} (m : res A) : within w (free m) (free m).
Proof. destruct m; cbn; [split; [reflexivity|lia]|reflexivity|exact I]. Qed.

Section Within.
Context (w : nat) (co : cops) (ops : cp_ops).
Context (HD : forall p, within w (co_deref co p) (one (op_deref ops p))) (HS : forall p, within w (co_step co p) (one (op_step ops p)))
  (HP : forall p, within w (co_dec co p) (one (op_dec ops p))) (HE : forall p q, within w (co_eq co p q) (one (op_eq ops p q))).
Ltac wi := repeat (first [apply within_ret|apply within_free|apply HE|apply HD|apply HS|apply HP|assumption|
  (apply within_bind; [|let a := fresh in intros a; cbv beta; repeat match goal with x : (_ * _)%type |- _ => destruct x end])|
  match goal with |- within _ (if ?b then _ else _) _ => destruct b end]).
Lemma within_neq p q : within w (co_neq co p q) (one (op_neq ops p q)).
Proof.
  unfold co_neq, op_neq. pose proof (HE p q) as H. destruct (co_eq co p q) as [[a k]|u|], (op_eq ops p q) as [b|v|]; cbn in H |- *; try contradiction; auto.
  destruct H as [-> K]. split; [reflexivity|lia].
Qed.
Lemma within_find_end_loop end_ : forall fuel a eog, within w (find_end_loop_o fuel co end_ a eog) (find_end_loop_c fuel ops end_ a eog).
Proof. induction fuel as [|f IH]; intros a eog; [exact I|]. cbn [find_end_loop_o find_end_loop_c]. wi. apply IH. Qed.
Lemma within_find_end fuel end_ eog : within w (find_end_of_grapheme_o fuel co end_ eog) (find_end_of_grapheme_c fuel ops end_ eog).
Proof. unfold find_end_of_grapheme_o, find_end_of_grapheme_c. wi. apply within_find_end_loop. Qed.
Lemma within_find_start_loop begin : forall fuel a p, within w (find_start_loop_o fuel co begin a p) (find_start_loop_c fuel ops begin a p).
Proof. induction fuel as [|f IH]; intros a p; [exact I|]. cbn [find_start_loop_o find_start_loop_c]. wi. apply IH. Qed.
Lemma within_find_start fuel begin p : within w (find_start_of_grapheme_o fuel co begin p) (find_start_of_grapheme_c fuel ops begin p).
Proof. unfold find_start_of_grapheme_o, find_start_of_grapheme_c. wi. apply within_find_start_loop. Qed.
Lemma within_begin fuel b e : within w (grapheme_begin_o fuel co b e) (grapheme_begin_c fuel ops b e).
Proof. unfold grapheme_begin_o, grapheme_begin_c. apply within_bind; [apply within_find_end|]. intros. wi. Qed.
Lemma within_end fuel b e : within w (grapheme_end_o fuel co b e) (grapheme_end_c fuel ops b e).
Proof. unfold grapheme_end_o, grapheme_end_c. apply within_bind; [apply within_find_start|]. intros. apply within_bind; [apply within_find_end|]. intros. wi. Qed.
Lemma within_step fuel g : within w (gi_step_o fuel co g) (gi_step_c fuel ops g).
Proof. unfold gi_step_o, gi_step_c. apply within_bind; [apply within_find_end|]. intros. wi. Qed.
Lemma within_eq_cp_loop eog other : forall fuel copy, within w (gi_eq_cp_loop_o fuel co eog copy other) (gi_eq_cp_loop_c fuel ops eog copy other).
Proof. induction fuel as [|f IH]; intros copy; [exact I|]. cbn [gi_eq_cp_loop_o gi_eq_cp_loop_c]. wi. apply IH. Qed.
Lemma within_eq_cp fuel g other : within w (gi_eq_cp_o fuel co g other) (gi_eq_cp_c fuel ops g other).
Proof. unfold gi_eq_cp_o, gi_eq_cp_c. wi. apply within_eq_cp_loop. Qed.
Lemma within_eq_loop eog other : forall fuel copy, within w (gi_eq_loop_o fuel co eog copy other) (gi_eq_loop_c fuel ops eog copy other).
Proof.
  induction fuel as [|f IH]; intros copy; [exact I|]. cbn [gi_eq_loop_o gi_eq_loop_c]. apply within_bind; [apply HE|]. intros [|]; [wi|].
  apply within_bind; [apply within_eq_cp|]. intros [|]; wi. apply IH.
Qed.
Lemma within_gi_eq fuel g other : within w (gi_eq_o fuel co g other) (gi_eq_c fuel ops g other).
Proof.
  unfold gi_eq_o, gi_eq_c. apply within_bind; [apply HE|]. intros c1. apply within_bind; [destruct c1; [apply within_eq_cp|wi]|].
  intros [|]; [wi|apply within_eq_loop].
Qed.
Lemma within_gi_neq fuel g other : within w (gi_neq_o fuel co g other) (gi_neq_c fuel ops g other).
Proof. unfold gi_neq_o, gi_neq_c. apply within_bind; [apply within_gi_eq|]. intros. wi. Qed.
Lemma within_filter_loop {It Elem Out} (neq neq1 : It -> It -> counted bool) (deref deref1 : It -> counted (Elem * It)) (inc inc1 : It -> counted It)
  (op op1 : Elem -> Out -> counted (Z * Out)) : (forall p q, within w (neq p q) (neq1 p q)) -> (forall p, within w (deref p) (deref1 p)) ->
  (forall p, within w (inc p) (inc1 p)) -> (forall x o, within w (op x o) (op1 x o)) ->
  forall fuel from to o n, within w (filter_loop_c fuel neq deref inc op from to o n) (filter_loop_c fuel neq1 deref1 inc1 op1 from to o n).
Proof.
  intros N D N' O. induction fuel as [|f IH]; intros from to o n; [exact I|]. cbn [filter_loop_c]. apply within_bind; [apply N|]. intros [|]; [|wi].
  apply within_bind; [apply D|]. intros [x from']. apply within_bind; [apply O|]. intros [k o']. apply within_bind; [apply within_free|]. intros n'.
  apply within_bind; [apply N'|]. intros from''. apply IH.
Qed.
Lemma within_decompose fuel dec g : within w (decompose_grapheme_o fuel co dec g) (decompose_grapheme_c fuel ops dec g).
Proof. apply within_filter_loop; auto using within_neq. intros. apply within_free. Qed.
Lemma within_decomposed sort append fuel dec g o : within w (form_decomposed_o sort append fuel co dec g o) (form_decomposed_c sort append fuel ops dec g o).
Proof. unfold form_decomposed_o, form_decomposed_c. apply within_bind; [apply within_decompose|]. intros [n d]. wi. Qed.
Lemma within_composed sort append fuel dec g o : within w (form_composed_o sort append fuel co dec g o) (form_composed_c sort append fuel ops dec g o).
Proof.
  unfold form_composed_o, form_composed_c. apply within_bind; [apply within_decompose|]. intros [n d]. apply within_bind; [apply within_free|]. intros [[d' oi] c]. wi.
Qed.
Lemma within_normalize fuel form form1 b e o : (forall g o, within w (form g o) (form1 g o)) ->
  within w (normalize_o fuel co form b e o) (normalize_c fuel ops form1 b e o).
Proof.
  intros H. unfold normalize_o, normalize_c. apply within_bind; [apply within_begin|]. intros from. apply within_bind; [apply within_end|]. intros to.
  apply within_filter_loop; auto using within_gi_neq, within_step. intros. wi.
Qed.
End Within.

(** ** The operations of a UTF-8 string *)
Lemma within_of_count w {A} (m : counted A) (r : res A) : erase m = r -> (forall a k, m = Ok (a, k) -> (k <= w)%nat) -> within w m (one r).
Proof. intros <- H. destruct m as [[a k]|u|]; cbn; [split; [reflexivity|]; specialize (H a k eq_refl); lia|reflexivity|exact I]. Qed.
Lemma read_inside {A} mem p (f : Z -> counted A) a k : cbind (one (rd mem p)) f = Ok (a, k) -> 0 <= p < zlen mem.
Proof. intros H. apply cbind_ok in H. destruct H as (x & k1 & l & E & _). apply one_ok in E. destruct E as [E _]. apply rd_inv in E. tauto. Qed.
Section Utf8String.
Context (cs : list Z) (m : nat) (Hcs : Forall codepoint31 cs) (Hm : (1 <= m)%nat) (Hlen : forall c, In c cs -> (length (utf8_encode c) <= m)%nat).
Let mem := string_buffer (utf8_text cs).
Lemma us_bytes : Forall is_byte mem.
Proof. unfold mem, string_buffer. apply Forall_app. split; [apply upto_FD_byte, utf8_text_bytes; assumption|]. constructor; [unfold is_byte; lia|constructor]. Qed.
Lemma us_lead p : 0 <= p < zlen mem -> exists q, closest_lead mem p q /\ p - q < Z.of_nat m /\ announced_len (octet mem q) <= Z.of_nat m.
Proof.
  intros P. unfold mem in *. rewrite string_buffer_text in *.
  assert (HA : Forall codepoint31 (cs ++ [0])) by (apply Forall_app; split; [assumption|constructor; [unfold codepoint31; lia|constructor]]).
  destruct (position_inside (cs ++ [0]) HA 0 p) as (i & Hi & U); [rewrite app_nil_r in P; cbn [app] in P; lia|].
  destruct (nth_error (cs ++ [0]) i) as [c|] eqn:E; [|apply nth_error_None in E; lia].
  assert (LC : (length (utf8_encode c) <= m)%nat).
  { apply nth_error_In, in_app_or in E. destruct E as [E|[<-|[]]]; [apply Hlen; assumption|exact Hm]. }
  destruct (utf8_locate [] (cs ++ [0]) [] i c p HA E U) as (A & lead & tail & B & j & EM & _ & _ & CH & _ & EN & _ & _ & -> & J).
  rewrite EM. destruct (chunk_lead A lead tail B j CH J) as (C & O & _). exists (zlen A). rewrite O, <- (ch_len _ _ CH). rewrite EN in LC. cbn [length] in LC.
  split; [exact C|]. unfold zlen in *. lia.
Qed.
Lemma us_deref p : within (2 * m + 1) (co_deref (utf8_cops mem) p) (one (op_deref (utf8_ops mem) p)).
Proof.
  apply within_of_count; [apply erase_deref|]. intros a k H. pose proof H as H'. unfold co_deref, utf8_cops, current_codepoint_o in H'. apply read_inside in H'.
  destruct (us_lead p H') as (q & C & D & L). pose proof (erase_ok _ _ _ H) as E. cbn [co_deref utf8_cops] in E, H. rewrite erase_deref in E.
  rewrite (deref_count mem p q a us_bytes H' C E) in H. injection H as <-. destruct (octet mem p <? 128); [lia|]. destruct (q <? p); lia.
Qed.
Lemma us_step p : within (2 * m + 1) (co_step (utf8_cops mem) p) (one (op_step (utf8_ops mem) p)).
Proof.
  apply within_of_count.
  - cbn [co_step utf8_cops]. rewrite erase_forward. unfold op_step. cbn [op_postinc utf8_ops]. unfold it_postinc, it_preinc. destruct (forward_one_codepoint mem p); reflexivity.
  - intros a k H. pose proof H as H'. unfold co_step, utf8_cops, forward_one_codepoint_o in H'. apply read_inside in H'.
    destruct (us_lead p H') as (q & C & D & L). pose proof (erase_ok _ _ _ H) as E. cbn [co_step utf8_cops] in E, H. rewrite erase_forward in E.
    rewrite (forward_count mem p q a us_bytes H' C E) in H. injection H as <-. lia.
Qed.
Lemma us_dec p : within (2 * m + 1) (co_dec (utf8_cops mem) p) (one (op_dec (utf8_ops mem) p)).
Proof.
  apply within_of_count; [apply erase_backward|]. intros a k H. pose proof H as H'. unfold co_dec, utf8_cops, rewind_one_codepoint_o in H'. apply read_inside in H'.
  destruct (us_lead p H') as (q & C & D & L). pose proof C as (Q & _). cbn [co_dec utf8_cops] in H.
  destruct (Z.eq_dec q 0) as [->|Q0].
  - exfalso. unfold rewind_one_codepoint_o in H. rewrite rd_octet in H by assumption. rewrite (rewind_at mem p 0 us_bytes H' C) in H. cbn in H. discriminate.
  - destruct (us_lead (q - 1) ltac:(lia)) as (q' & C' & D' & L'). rewrite (backward_count mem p q q' us_bytes H' C C') in H. injection H as <- <-. lia.
Qed.
Lemma us_eq p q : within (2 * m + 1) (co_eq (utf8_cops mem) p q) (one (op_eq (utf8_ops mem) p q)).
Proof.
  apply within_of_count; [apply erase_eq|]. intros a k H. pose proof H as H'. unfold co_eq, utf8_cops, it_eq_o in H'. apply read_inside in H'.
  destruct (us_lead p H') as (r & C & D & L). pose proof (erase_ok _ _ _ H) as E. cbn [co_eq utf8_cops] in E, H. rewrite erase_eq in E.
  rewrite (eq_count mem p r q a us_bytes H' C E) in H. injection H as <-. lia.
Qed.
End Utf8String.
