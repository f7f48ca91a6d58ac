(** * Proofs: utf8_bounds::check and utf8_bounds::enforce *)
From Verif Require Import Prelude Utf8Model TextModel Utf8Spec Utf8Proofs LawfulProofs IterProofs ByteProofs.
Require Import ZifyBool ZifyNat.

(** Octet [p] of the range ending at [e] announces octets beyond [e]. *)
Definition bad (mem : list Z) (e p : Z) : bool :=
  (192 <=? octet mem p) && (e <? p + announced_len (octet mem p)).

Lemma size_test mem e w : Forall is_byte mem ->
  is_codepoint_start (octet mem (e - w)) && (announced_len (octet mem (e - w)) >? w) = bad mem e (e - w).
Proof.
  intros F. rewrite is_start_spec by (apply octet_byte; assumption). unfold bad. f_equal.
  lia.
Qed.

Lemma check_loop_spec mem b e : Forall is_byte mem -> 0 <= b -> e < zlen mem ->
  forall n w, b <= e - w -> 0 <= w ->
  exists r, check_loop n mem b (e - w) w = Ok r /\
    (r = true <-> forall p, b < p <= e - w -> e - p < w + Z.of_nat n -> bad mem e p = false).
Proof.
  intros F Hb He. induction n as [|n IH]; intros w Hw Hw0; cbn [check_loop].
  - exists true. split; [reflexivity|]. split; [|reflexivity]. intros _ p H1 H2. lia.
  - destruct (Z.eqb_spec (e - w) b) as [E|E].
    + exists true. split; [reflexivity|]. split; [|reflexivity]. intros _ p H1 H2. lia.
    + rewrite rd_octet by lia. cbn [bind].
      rewrite codepoint_size_spec by (apply octet_byte; assumption). cbn [bind].
      rewrite size_test by assumption. destruct (bad mem e (e - w)) eqn:B.
      * exists false. split; [reflexivity|]. split; [discriminate|]. intros H.
        rewrite H in B by lia. discriminate.
      * rewrite padd_ok by lia. cbn [bind].
        destruct (IH (w + 1) ltac:(lia) ltac:(lia)) as (r & H1 & H2).
        exists r. replace (e - w + -1) with (e - (w + 1)) by lia. split; [assumption|].
        rewrite H2. split; intros H p Hp Hn.
        -- destruct (Z.eq_dec p (e - w)) as [->|]; [assumption|]. apply H; lia.
        -- apply H; lia.
Qed.

Lemma check_iff mem b e : Forall is_byte mem -> 0 <= b <= e -> e < zlen mem ->
  exists r, bounds_check mem b e = Ok r /\
    (r = true <-> ~ continuation_octet (octet mem b) /\
       forall p, b < p <= e -> e - p <= 5 -> bad mem e p = false).
Proof.
  intros F Hb He. unfold bounds_check. rewrite rd_octet by lia. cbn [bind].
  rewrite is_continuation_spec by (apply octet_byte; assumption).
  destruct (is_cont (octet mem b)) eqn:C.
  - exists false. split; [reflexivity|]. split; [discriminate|]. intros (N & _).
    apply is_cont_iff in C. contradiction.
  - destruct (check_loop_spec mem b e F ltac:(lia) He 6 0 ltac:(lia) ltac:(lia)) as (r & H1 & H2).
    exists r. rewrite Z.sub_0_r in *. split; [assumption|]. rewrite H2.
    split.
    + intros H. split; [intros X; apply is_cont_iff in X; congruence|]. intros p Hp Hn. apply H; lia.
    + intros (_ & H) p Hp Hn. apply H; lia.
Qed.

(** ** Buffers as functions *)
Lemma upd_length l : forall n v, length (upd l n v) = length l.
Proof. induction l as [|x l IH]; intros [|n] v; cbn; try reflexivity. rewrite IH. reflexivity. Qed.
Lemma nth_upd l : forall n v k d, nth k (upd l n v) d =
  if (Nat.eqb k n && Nat.ltb n (length l))%bool then v else nth k l d.
Proof.
  induction l as [|x l IH]; intros [|n] v [|k] d; cbn [upd nth length]; try reflexivity.
  - replace (Nat.ltb (S n) 0) with false by (symmetry; apply Nat.ltb_ge; lia).
    rewrite andb_false_r. reflexivity.
  - rewrite IH. reflexivity.
Qed.
Lemma wr_ok mem p v : 0 <= p < zlen mem -> exists mem',
  wr mem p v = Ok mem' /\ length mem' = length mem /\
  (forall k, 0 <= k -> octet mem' k = if k =? p then v else octet mem k).
Proof.
  intros H. unfold wr. destruct (Z.leb_spec 0 p); [|lia]. destruct (Z.ltb_spec p (zlen mem)); [|lia].
  cbn [andb]. eexists. split; [reflexivity|]. split; [apply upd_length|].
  intros k Hk. unfold octet. rewrite nth_upd.
  destruct (Nat.eqb_spec (Z.to_nat k) (Z.to_nat p)); destruct (Nat.ltb_spec (Z.to_nat p) (length mem));
    destruct (Z.eqb_spec k p); cbn [andb]; try reflexivity; zl.
Qed.
Lemma octet_ext a b : length a = length b ->
  (forall k, 0 <= k < zlen a -> octet a k = octet b k) -> a = b.
Proof.
  revert b. induction a as [|x a IH]; intros [|y b] L H; try discriminate; [reflexivity|].
  f_equal.
  - exact (H 0 ltac:(zl)).
  - apply IH; [cbn in L; lia|]. intros k Hk. specialize (H (k + 1) ltac:(zl)).
    unfold octet in *. replace (Z.to_nat (k + 1)) with (S (Z.to_nat k)) in H by lia. exact H.
Qed.
Lemma bytes_of_octets mem : (forall k, 0 <= k < zlen mem -> is_byte (octet mem k)) -> Forall is_byte mem.
Proof.
  intros H. apply Forall_forall. intros x I. destruct (In_nth _ _ 0 I) as (n & Hn & <-).
  specialize (H (Z.of_nat n) ltac:(zl)). unfold octet in H. rewrite Nat2Z.id in H. exact H.
Qed.

(** ** enforce *)
Lemma enforce_front_spec e : forall n mem b fuel ret,
  Forall is_byte mem -> e - b = Z.of_nat n -> 0 <= b -> e < zlen mem ->
  ~ continuation_octet (octet mem e) -> (n < fuel)%nat ->
  exists b' mem', enforce_front fuel mem b ret = Ok (mem', b', ret && (b' =? b)) /\
    b <= b' <= e /\ length mem' = length mem /\ Forall is_byte mem' /\
    (forall k, b <= k < b' -> continuation_octet (octet mem k)) /\
    ~ continuation_octet (octet mem b') /\
    (forall k, 0 <= k -> octet mem' k = if (b <=? k) && (k <? b') then 63 else octet mem k).
Proof.
  induction n as [|n IH]; intros mem b fuel ret F Hn Hb He Hc Hf;
    (destruct fuel as [|fuel]; [lia|]); cbn [enforce_front];
    rewrite rd_octet by lia; cbn [bind];
    rewrite is_continuation_spec by (apply octet_byte; assumption).
  - replace b with e by lia. destruct (is_cont (octet mem e)) eqn:C; [apply is_cont_iff in C; contradiction|].
    exists e, mem. rewrite Z.eqb_refl, andb_true_r. repeat split; try assumption; try lia.
    intros k Hk. destruct (Z.leb_spec e k); destruct (Z.ltb_spec k e); cbn [andb]; try lia; reflexivity.
  - destruct (is_cont (octet mem b)) eqn:C.
    + destruct (wr_ok mem b 63 ltac:(lia)) as (m1 & -> & L1 & O1). cbn [bind].
      assert (F1 : Forall is_byte m1).
      { apply bytes_of_octets. intros k Hk. rewrite O1 by lia. destruct (Z.eqb_spec k b); [unfold is_byte; lia|].
        apply octet_byte; assumption. }
      assert (Z1 : zlen m1 = zlen mem) by zl.
      rewrite padd_ok by lia. cbn [bind].
      assert (Hc1 : ~ continuation_octet (octet m1 e)) by (rewrite O1 by lia; destruct (Z.eqb_spec e b); [lia|assumption]).
      destruct (IH m1 (b + 1) fuel false F1 ltac:(lia) ltac:(lia) ltac:(lia) Hc1 ltac:(lia))
        as (b' & mem' & -> & Hb' & L' & F' & A1 & A2 & A3).
      exists b', mem'. split; [f_equal; f_equal; lia|]. split; [lia|]. split; [lia|]. split; [assumption|].
      split; [|split].
      * intros k Hk. destruct (Z.eq_dec k b) as [->|]; [apply is_cont_iff; assumption|].
        specialize (A1 k ltac:(lia)). rewrite O1 in A1 by lia. destruct (Z.eqb_spec k b); [lia|assumption].
      * rewrite O1 in A2 by lia. destruct (Z.eqb_spec b' b); [lia|assumption].
      * intros k Hk. rewrite A3 by lia. rewrite O1 by lia.
        destruct (Z.eqb_spec k b); destruct (Z.leb_spec (b + 1) k); destruct (Z.leb_spec b k);
          destruct (Z.ltb_spec k b'); cbn [andb]; try lia; reflexivity.
    + exists b, mem. rewrite Z.eqb_refl, andb_true_r. repeat split; try assumption; try lia.
      * intros X. apply is_cont_iff in X. congruence.
      * intros k Hk. destruct (Z.leb_spec b k); destruct (Z.ltb_spec k b); cbn [andb]; try lia; reflexivity.
Qed.

Lemma enforce_back_spec b e : 0 <= b -> forall n mem w ret,
  Forall is_byte mem -> e < zlen mem -> b <= e - w -> 0 <= w ->
  exists mem' r, enforce_back n mem b (e - w) w ret = Ok (mem', r) /\
    length mem' = length mem /\ Forall is_byte mem' /\
    (r = true <-> ret = true /\ forall p, b < p <= e - w -> e - p < w + Z.of_nat n -> bad mem e p = false) /\
    (forall k, 0 <= k -> octet mem' k =
       if (b <? k) && (k <=? e - w) && (e - k <? w + Z.of_nat n) && bad mem e k then 63 else octet mem k).
Proof.
  intros Hb. induction n as [|n IH]; intros mem w ret F He Hw Hw0; cbn [enforce_back].
  - exists mem, ret. split; [reflexivity|]. split; [reflexivity|]. split; [assumption|]. split.
    + split; [intros ->; split; [reflexivity|]; intros; lia|tauto].
    + intros k Hk. destruct (Z.ltb_spec b k), (Z.leb_spec k (e - w)), (Z.ltb_spec (e - k) (w + Z.of_nat 0));
        cbn [andb]; try lia; reflexivity.
  - destruct (Z.eqb_spec (e - w) b) as [E|E].
    + exists mem, ret. split; [reflexivity|]. split; [reflexivity|]. split; [assumption|]. split.
      * split; [intros ->; split; [reflexivity|]; intros; lia|tauto].
      * intros k Hk. destruct (Z.ltb_spec b k), (Z.leb_spec k (e - w)); cbn [andb]; try lia; reflexivity.
    + rewrite rd_octet by lia. cbn [bind].
      rewrite codepoint_size_spec by (apply octet_byte; assumption). cbn [bind].
      rewrite size_test by assumption. destruct (bad mem e (e - w)) eqn:B.
      * destruct (wr_ok mem (e - w) 63 ltac:(lia)) as (m1 & -> & L1 & O1). cbn [bind].
        assert (F1 : Forall is_byte m1).
        { apply bytes_of_octets. intros k Hk. rewrite O1 by lia. destruct (Z.eqb_spec k (e - w)); [unfold is_byte; lia|].
          apply octet_byte; assumption. }
        rewrite padd_ok by zl. cbn [bind]. replace (e - w + -1) with (e - (w + 1)) by lia.
        destruct (IH m1 (w + 1) false F1 ltac:(zl) ltac:(lia) ltac:(lia)) as (mem' & r & -> & L' & F' & R & O).
        exists mem', r. split; [reflexivity|]. split; [lia|]. split; [assumption|]. split.
        -- split; [intros H; apply R in H; destruct H; discriminate|].
           intros (_ & H). rewrite H in B by lia. discriminate.
        -- intros k Hk. rewrite O by lia. unfold bad. rewrite O1 by lia. unfold bad in B.
           destruct (Z.eqb_spec k (e - w)) as [->|Hne].
           ++ rewrite B. destruct (Z.ltb_spec b (e - w)), (Z.leb_spec (e - w) (e - (w + 1))), (Z.leb_spec (e - w) (e - w)),
                (Z.ltb_spec (e - (e - w)) (w + Z.of_nat (S n))); cbn [andb]; try lia; reflexivity.
           ++ destruct (Z.ltb_spec b k), (Z.leb_spec k (e - (w + 1))), (Z.leb_spec k (e - w)),
                (Z.ltb_spec (e - k) (w + 1 + Z.of_nat n)), (Z.ltb_spec (e - k) (w + Z.of_nat (S n)));
                cbn [andb]; try lia; reflexivity.
      * cbn [bind]. rewrite padd_ok by lia. cbn [bind]. replace (e - w + -1) with (e - (w + 1)) by lia.
        destruct (IH mem (w + 1) ret F He ltac:(lia) ltac:(lia)) as (mem' & r & -> & L' & F' & R & O).
        exists mem', r. split; [reflexivity|]. split; [lia|]. split; [assumption|]. split.
        -- rewrite R. split; intros (H1 & H); (split; [assumption|]); intros p Hp Hn.
           ++ destruct (Z.eq_dec p (e - w)) as [->|]; [assumption|]. apply H; lia.
           ++ apply H; lia.
        -- intros k Hk. rewrite O by lia.
           destruct (Z.eq_dec k (e - w)) as [->|Hne].
           ++ rewrite B. rewrite !andb_false_r. reflexivity.
           ++ destruct (Z.ltb_spec b k), (Z.leb_spec k (e - (w + 1))), (Z.leb_spec k (e - w)),
                (Z.ltb_spec (e - k) (w + 1 + Z.of_nat n)), (Z.ltb_spec (e - k) (w + Z.of_nat (S n)));
                cbn [andb]; try lia; reflexivity.
Qed.

(** The complete effect of enforce on a range whose end is not a continuation octet. *)
Lemma enforce_full mem b e : Forall is_byte mem -> 0 <= b <= e -> e < zlen mem ->
  ~ continuation_octet (octet mem e) ->
  exists b' mem' r, bounds_enforce mem b e = Ok (mem', r) /\
    b <= b' <= e /\ length mem' = length mem /\ Forall is_byte mem' /\
    (forall k, b <= k < b' -> continuation_octet (octet mem k)) /\
    ~ continuation_octet (octet mem b') /\
    (r = true <-> b' = b /\ forall p, b < p <= e -> e - p <= 5 -> bad mem e p = false) /\
    (forall k, 0 <= k -> octet mem' k =
       if (b <=? k) && (k <? b') then 63
       else if (b' <? k) && (k <=? e) && (e - k <=? 5) && bad mem e k then 63
       else octet mem k).
Proof.
  intros F Hb He Hc. unfold bounds_enforce.
  destruct (enforce_front_spec e (Z.to_nat (e - b)) mem b (S (length mem)) true F ltac:(lia) ltac:(lia) He Hc ltac:(zl))
    as (b' & m1 & -> & Hb' & L1 & F1 & A1 & A2 & O1). cbn [bind].
  destruct (enforce_back_spec b' e ltac:(lia) 6 m1 0 (true && (b' =? b)) F1 ltac:(zl) ltac:(lia) ltac:(lia))
    as (m2 & r & E2 & L2 & F2 & R & O2).
  rewrite Z.sub_0_r in *. exists b', m2, r.
  assert (BB : forall p, b' <= p -> bad m1 e p = bad mem e p).
  { intros p Hp. unfold bad. rewrite O1 by lia.
    destruct (Z.leb_spec b p), (Z.ltb_spec p b'); cbn [andb]; try lia; reflexivity. }
  split; [assumption|]. split; [assumption|]. split; [lia|]. split; [assumption|].
  split; [assumption|]. split; [assumption|]. split.
  - rewrite R. split.
    + intros (H1 & H2). assert (b' = b) by lia. split; [assumption|]. intros p Hp Hn.
      rewrite <- BB by lia. apply H2; lia.
    + intros (-> & H2). rewrite Z.eqb_refl. split; [reflexivity|]. intros p Hp Hn.
      rewrite BB by lia. apply H2; lia.
  - intros k Hk. rewrite O2 by lia. rewrite O1 by lia.
    destruct (Z.ltb_spec b' k).
    + rewrite BB by lia. destruct (Z.leb_spec b k), (Z.ltb_spec k b'), (Z.leb_spec k e), (Z.ltb_spec (e - k) (0 + Z.of_nat 6)),
        (Z.leb_spec (e - k) 5); cbn [andb]; try lia; reflexivity.
    + cbn [andb]. destruct (Z.leb_spec b k), (Z.ltb_spec k b'); cbn [andb]; reflexivity.
Qed.

(** ** std::string *)
Lemma octet_buffer s k : octet (string_buffer s) k = octet s k.
Proof.
  unfold octet, string_buffer. destruct (Nat.lt_ge_cases (Z.to_nat k) (length s)).
  - apply app_nth1. assumption.
  - rewrite app_nth2 by assumption. rewrite (nth_overflow s) by assumption.
    destruct (Z.to_nat k - length s)%nat as [|[|n]]; reflexivity.
Qed.
Lemma buffer_bytes s : Forall is_byte s -> Forall is_byte (string_buffer s).
Proof. intros H. apply Forall_app. split; [assumption|]. constructor; [unfold is_byte; lia|constructor]. Qed.
Lemma buffer_len s : zlen (string_buffer s) = zlen s + 1.
Proof. unfold string_buffer. zl. Qed.
Lemma octet_end s : octet s (zlen s) = 0.
Proof. unfold octet. apply nth_overflow. zl. Qed.
Lemma bad_cut_short s p : bad (string_buffer s) (zlen s) p = true <-> cut_short s p.
Proof. unfold bad, cut_short. rewrite octet_buffer. unfold zlen. lia. Qed.
Lemma bad_cut_short_false s p : bad (string_buffer s) (zlen s) p = false <-> ~ cut_short s p.
Proof.
  rewrite <- bad_cut_short. destruct (bad _ _ _); split; congruence.
Qed.
Lemma not_cut_short_end s : ~ cut_short s (zlen s).
Proof. intros [H _]. rewrite octet_end in H. lia. Qed.

Lemma check_string s : Forall is_byte s ->
  exists r, bounds_check (string_buffer s) 0 (zlen s) = Ok r /\
    (r = true <-> ~ continuation_octet (octet s 0) /\
       forall p, 1 <= p < zlen s -> zlen s - p <= 5 -> ~ cut_short s p).
Proof.
  intros F. destruct (check_iff (string_buffer s) 0 (zlen s) (buffer_bytes s F)) as (r & H1 & H2).
  { zl. } { rewrite buffer_len. lia. }
  exists r. split; [assumption|]. rewrite H2, octet_buffer. split; intros (A & B); (split; [assumption|]).
  - intros p Hp Hn. apply bad_cut_short_false. apply B; lia.
  - intros p Hp Hn. apply bad_cut_short_false. destruct (Z.eq_dec p (zlen s)) as [->|].
    + apply not_cut_short_end.
    + apply B; lia.
Qed.

(** C12 *)
Lemma valid_not_cut_short cs p : Forall codepoint31 cs -> 0 <= p < zlen (utf8_text cs) ->
  ~ cut_short (utf8_text cs) p.
Proof.
  intros F Hp [H1 H2]. destruct (position_inside cs F 0 p ltac:(lia)) as (i & Hi & Hin).
  destruct (nth_lt_some cs i Hi) as [c E].
  destruct (utf8_locate [] cs [] i c p F E Hin) as (A & l & t & B & j & EM & _ & _ & C & _ & _ & LA & _ & -> & Hj).
  cbn [app] in EM. rewrite app_nil_r in EM. rewrite EM in H1, H2.
  destruct (Z.eq_dec j 0) as [->|].
  - assert (octet (A ++ l :: t ++ B) (zlen A + 0) = l) as O.
    { unfold octet. rewrite app_nth2 by zl. replace (Z.to_nat (zlen A + 0) - length A)%nat with 0%nat by zl. reflexivity. }
    rewrite O in *. pose proof (ch_len _ _ C). zl.
  - assert (continuation_octet (octet (A ++ l :: t ++ B) (zlen A + j))) as O.
    { unfold octet. rewrite app_nth2 by zl.
      replace (Z.to_nat (zlen A + j) - length A)%nat with (S (Z.to_nat (j - 1))) by zl. cbn [nth].
      rewrite app_nth1 by zl. pose proof (ch_tail _ _ C) as T. rewrite Forall_forall in T.
      apply T. apply nth_In. zl. }
    unfold continuation_octet in O. lia.
Qed.
Lemma utf8_text_bytes cs : Forall codepoint31 cs -> Forall octet_upto_FD (utf8_text cs).
Proof.
  intros F. apply Forall_flat_map. eapply Forall_impl; [|exact F].
  intros c Hc. destruct (utf8_encode_chunk c Hc) as (l & t & -> & [C1 C2 C3 C4 C5] & _).
  constructor; [unfold octet_upto_FD, is_byte in *; lia|].
  eapply Forall_impl; [|exact C4]. unfold continuation_octet, octet_upto_FD. lia.
Qed.
Lemma upto_FD_byte s : Forall octet_upto_FD s -> Forall is_byte s.
Proof. intros F. eapply Forall_impl; [|exact F]. unfold octet_upto_FD, is_byte. lia. Qed.
Lemma utf8_text_first cs : Forall codepoint31 cs -> ~ continuation_octet (octet (utf8_text cs) 0).
Proof.
  intros F. destruct cs as [|c cs].
  - unfold continuation_octet, octet. cbn. lia.
  - inversion F as [|? ? Hc _]; subst.
    destruct (utf8_encode_chunk c Hc) as (l & t & E & [C1 C2 C3 C4 C5] & _).
    change (utf8_text (c :: cs)) with (utf8_encode c ++ utf8_text cs). rewrite E. unfold octet. cbn.
    unfold continuation_octet, is_cont in *. lia.
Qed.
Lemma check_accepts_valid cs : Forall codepoint31 cs ->
  let s := utf8_text cs in bounds_check (string_buffer s) 0 (zlen s) = Ok true.
Proof.
  intros F s. destruct (check_string s (upto_FD_byte _ (utf8_text_bytes _ F))) as (r & -> & H).
  f_equal. apply H. split; [apply utf8_text_first; assumption|].
  intros p Hp _. apply valid_not_cut_short; [assumption|]. fold s. lia.
Qed.

(** C13 *)
Lemma check_meaning s : Forall is_byte s ->
  (bounds_check (string_buffer s) 0 (zlen s) = Ok true <->
   ~ continuation_octet (octet s 0) /\
   forall p, 1 <= p < zlen s -> zlen s - p <= 5 -> ~ cut_short s p).
Proof.
  intros F. destruct (check_string s F) as (r & -> & H). rewrite <- H.
  split; [intros X; injection X; trivial|intros ->; reflexivity].
Qed.
Lemma check_sound_long s : Forall octet_upto_FD s -> 6 <= zlen s ->
  (bounds_check (string_buffer s) 0 (zlen s) = Ok true <->
   ~ continuation_octet (octet s 0) /\ forall p, 0 <= p < zlen s -> ~ cut_short s p).
Proof.
  intros F L. rewrite (check_meaning s (upto_FD_byte _ F)).
  split; intros (A & B); (split; [assumption|]); intros p Hp.
  - destruct (Z.leb_spec (zlen s - p) 5); [apply B; lia|].
    intros [C1 C2]. assert (U : octet_upto_FD (octet s p)).
    { unfold octet. rewrite Forall_forall in F. apply F. apply nth_In. zl. }
    unfold octet_upto_FD in U.
    assert (announced_len (octet s p) <= 6) by (unfold announced_len; zcases; lia). zl.
  - intros _. apply B. lia.
Qed.
Lemma check_unsound : exists s, Forall octet_upto_FD s /\
  bounds_check (string_buffer s) 0 (zlen s) = Ok true /\ cut_short s 0 /\
  it_preinc (string_buffer s) 0 = UB BadPointer.
Proof.
  exists [0xE2]. split; [repeat constructor; unfold octet_upto_FD; lia|].
  split; [vm_compute; reflexivity|]. split; [vm_compute; split; [discriminate|reflexivity]|].
  vm_compute. reflexivity.
Qed.

(** enforce on a std::string *)
Lemma enforce_string s : Forall is_byte s ->
  exists f s' r, bounds_enforce (string_buffer s) 0 (zlen s) = Ok (string_buffer s', r) /\
    length s' = length s /\ Forall is_byte s' /\ 0 <= f <= zlen s /\
    (forall k, 0 <= k < f -> continuation_octet (octet s k)) /\
    ~ continuation_octet (octet s f) /\
    (r = true <-> f = 0 /\ forall p, 1 <= p < zlen s -> zlen s - p <= 5 -> ~ cut_short s p) /\
    (forall k, 0 <= k < zlen s ->
       (k < f -> octet s' k = 63) /\
       (f < k -> zlen s - k <= 5 -> cut_short s k -> octet s' k = 63) /\
       (f <= k -> (f = k \/ zlen s - k > 5 \/ ~ cut_short s k) -> octet s' k = octet s k)).
Proof.
  intros F.
  destruct (enforce_full (string_buffer s) 0 (zlen s) (buffer_bytes s F)) as (f & mem' & r & E & Hf & L & FB & A1 & A2 & R & O).
  { zl. } { rewrite buffer_len. lia. }
  { rewrite octet_buffer, octet_end. unfold continuation_octet. lia. }
  assert (LE : length mem' = S (length s)) by (unfold string_buffer in L; zl).
  exists f, (firstn (length s) mem'), r.
  assert (EM : mem' = string_buffer (firstn (length s) mem')).
  { unfold string_buffer. rewrite <- (firstn_skipn (length s) mem') at 1. f_equal.
    assert (Lsk : length (skipn (length s) mem') = 1%nat) by (rewrite skipn_length; lia).
    destruct (skipn (length s) mem') as [|x [|y t]] eqn:SK; try discriminate.
    f_equal. specialize (O (zlen s) ltac:(zl)).
    unfold octet in O at 1. unfold zlen in O. rewrite Nat2Z.id in O.
    rewrite <- (Nat.add_0_r (length s)) in O at 1.
    assert (NE : nth (length s + 0) mem' 0 = x).
    { apply nth_error_nth. rewrite <- nth_error_skipn, SK. reflexivity. }
    rewrite NE in O. rewrite O. fold (zlen s).
    assert (BE : bad (string_buffer s) (zlen s) (zlen s) = false) by (apply bad_cut_short_false; apply not_cut_short_end).
    rewrite BE, andb_false_r, octet_buffer, octet_end.
    destruct (Z.leb_spec 0 (zlen s)), (Z.ltb_spec (zlen s) f); cbn [andb]; try lia; reflexivity. }
  rewrite EM in E. split; [assumption|].
  assert (LF : length (firstn (length s) mem') = length s) by (rewrite firstn_length; lia).
  split; [assumption|]. split.
  { rewrite EM in FB. unfold string_buffer in FB. apply Forall_app in FB. tauto. }
  split; [assumption|]. split; [intros k Hk; rewrite <- octet_buffer; apply A1; lia|].
  split; [rewrite <- octet_buffer; assumption|]. split.
  - rewrite R. split; intros (B1 & B2); (split; [assumption|]).
    + intros p Hp Hn. apply bad_cut_short_false. apply B2; lia.
    + intros p Hp Hn. apply bad_cut_short_false. destruct (Z.eq_dec p (zlen s)) as [->|].
      * apply not_cut_short_end.
      * apply B2; lia.
  - intros k Hk. specialize (O k ltac:(lia)). rewrite EM, !octet_buffer in O. rewrite O.
    split; [|split].
    + intros H. destruct (Z.leb_spec 0 k), (Z.ltb_spec k f); cbn [andb]; try lia; reflexivity.
    + intros H1 H2 H3. apply bad_cut_short in H3. rewrite H3.
      destruct (Z.leb_spec 0 k), (Z.ltb_spec k f), (Z.ltb_spec f k), (Z.leb_spec k (zlen s)), (Z.leb_spec (zlen s - k) 5);
        cbn [andb]; try lia; reflexivity.
    + intros H1 H2. destruct (Z.leb_spec 0 k), (Z.ltb_spec k f); cbn [andb]; try lia.
      destruct (bad (string_buffer s) (zlen s) k) eqn:B; [|rewrite andb_false_r; reflexivity].
      apply bad_cut_short in B.
      destruct (Z.ltb_spec f k), (Z.leb_spec k (zlen s)), (Z.leb_spec (zlen s - k) 5); cbn [andb]; try lia; try reflexivity.
      exfalso. destruct H2 as [H2|[H2|H2]]; try lia; tauto.
Qed.

(** C14 *)
Lemma enforce_agrees s : Forall is_byte s ->
  exists r s', bounds_check (string_buffer s) 0 (zlen s) = Ok r /\
    bounds_enforce (string_buffer s) 0 (zlen s) = Ok (string_buffer s', r) /\
    (r = true -> s' = s) /\ (r = false -> s' <> s).
Proof.
  intros F. destruct (check_string s F) as (r & EC & HC).
  destruct (enforce_string s F) as (f & s' & r' & EE & L & FB & Hf & A1 & A2 & R & O).
  assert (X : r = true <-> r' = true).
  { rewrite HC, R. split; intros (B1 & B2); (split; [|assumption]).
    - destruct (Z.eq_dec f 0); [assumption|]. exfalso. apply B1. apply A1. lia.
    - subst f. assumption. }
  assert (r' = r) by (destruct r, r'; tauto || (exfalso; destruct X; intuition congruence)). subst r'.
  exists r, s'. split; [assumption|]. split; [assumption|]. split; intros Hr.
  - subst r. destruct R as [R _]. destruct (R eq_refl) as (-> & NB).
    apply octet_ext; [assumption|]. intros k Hk. destruct (O k ltac:(zl)) as (_ & _ & O3).
    apply O3; [lia|]. destruct (Z.eq_dec k 0); [left; lia|]. destruct (Z.leb_spec (zlen s - k) 5); [|lia].
    right. right. apply NB; zl.
  - intros ->.
    assert (f = 0).
    { destruct (Z.eq_dec f 0); [assumption|]. exfalso. destruct (O 0 ltac:(lia)) as (O1 & _).
      specialize (O1 ltac:(lia)). specialize (A1 0 ltac:(lia)). unfold continuation_octet in A1. lia. }
    subst f. rewrite Hr in R. enough (false = true) by discriminate. apply R. split; [reflexivity|].
    intros p Hp Hn CS. destruct (O p ltac:(lia)) as (_ & O2 & _). specialize (O2 ltac:(lia) Hn CS).
    destruct CS as [CS _]. lia.
Qed.

(** C15 *)
Lemma enforce_effect s : Forall is_byte s ->
  exists s' r, bounds_enforce (string_buffer s) 0 (zlen s) = Ok (string_buffer s', r) /\
    length s' = length s /\
    forall k, 0 <= k < zlen s ->
      let replaced := leading_continuation s k \/
        (cut_short s k /\ zlen s - k <= 5 /\ exists i, 0 <= i < k /\ ~ continuation_octet (octet s i)) in
      (replaced -> octet s' k = 63) /\ (~ replaced -> octet s' k = octet s k).
Proof.
  intros F. destruct (enforce_string s F) as (f & s' & r & EE & L & FB & Hf & A1 & A2 & R & O).
  exists s', r. split; [assumption|]. split; [assumption|]. intros k Hk.
  destruct (O k Hk) as (O1 & O2 & O3). cbv zeta. split.
  - intros [LC|(CS & Hn & i & Hi & NC)].
    + apply O1. destruct (Z.ltb_spec k f); [assumption|]. exfalso. apply A2. apply LC. lia.
    + apply O2; try assumption. destruct (Z.ltb_spec f k); [assumption|]. exfalso. apply NC. apply A1. lia.
  - intros N. apply O3.
    + destruct (Z.leb_spec f k); [assumption|]. exfalso. apply N. left. intros i Hi. apply A1. lia.
    + destruct (Z.eq_dec f k); [left; assumption|]. right.
      destruct (Z.leb_spec (zlen s - k) 5) as [H5|H5]; [right|left; lia].
      intros CS. apply N. right. split; [assumption|]. split; [assumption|].
      exists f. split; [|assumption]. destruct (Z.leb_spec f k); [lia|].
      exfalso. apply N. left. intros i Hi. apply A1. lia.
Qed.

(** C16 *)
Lemma enforce_then_check s : Forall is_byte s -> ~ continuation_octet (octet s 0) ->
  exists s' r, bounds_enforce (string_buffer s) 0 (zlen s) = Ok (string_buffer s', r) /\
    bounds_check (string_buffer s') 0 (zlen s') = Ok true.
Proof.
  intros F NC. destruct (enforce_string s F) as (f & s' & r & EE & L & FB & Hf & A1 & A2 & R & O).
  assert (f = 0) by (destruct (Z.eq_dec f 0); [assumption|]; exfalso; apply NC; apply A1; lia). subst f.
  exists s', r. split; [assumption|]. apply (check_meaning s' FB).
  assert (ZL : zlen s' = zlen s) by zl. rewrite ZL. split.
  - destruct (Z.eq_dec (zlen s) 0).
    + destruct s'; [unfold octet, continuation_octet; cbn; lia|zl].
    + destruct (O 0 ltac:(zl)) as (_ & _ & O3). rewrite O3 by lia. assumption.
  - intros p Hp Hn CS. destruct (O p ltac:(lia)) as (_ & O2 & O3).
    assert (D : cut_short s p \/ ~ cut_short s p) by (unfold cut_short; lia).
    destruct D as [D|D].
    + specialize (O2 ltac:(lia) Hn D). destruct CS as [CS _]. lia.
    + specialize (O3 ltac:(lia) ltac:(right; right; assumption)). apply D.
      unfold cut_short in *. rewrite O3 in CS. zl.
Qed.

(** C17 *)
Lemma check_local m1 m2 b e : Forall is_byte m1 -> Forall is_byte m2 ->
  0 <= b <= e -> e < zlen m1 -> e < zlen m2 ->
  octet m1 e < 128 -> octet m2 e < 128 ->
  (forall k, b <= k < e -> octet m1 k = octet m2 k) ->
  bounds_check m1 b e = bounds_check m2 b e.
Proof.
  intros F1 F2 Hb L1 L2 E1 E2 A.
  destruct (check_iff m1 b e F1 Hb L1) as (r1 & -> & H1).
  destruct (check_iff m2 b e F2 Hb L2) as (r2 & -> & H2). f_equal.
  assert (X : r1 = true <-> r2 = true).
  { rewrite H1, H2.
    assert (B : forall p, b < p <= e -> bad m1 e p = bad m2 e p).
    { intros p Hp. unfold bad. destruct (Z.eq_dec p e) as [->|]; [lia|]. rewrite A by lia. reflexivity. }
    assert (C : continuation_octet (octet m1 b) <-> continuation_octet (octet m2 b)).
    { unfold continuation_octet. destruct (Z.eq_dec b e) as [->|]; [lia|]. rewrite A by lia. lia. }
    split; intros (X1 & X2); (split; [tauto|]); intros p Hp Hn.
    - rewrite <- B by lia. apply X2; lia.
    - rewrite B by lia. apply X2; lia. }
  destruct r1, r2; tauto || (exfalso; destruct X; intuition congruence).
Qed.
Lemma enforce_local mem b e : Forall is_byte mem -> 0 <= b <= e -> e < zlen mem ->
  octet mem e < 128 ->
  exists mem' r, bounds_enforce mem b e = Ok (mem', r) /\ length mem' = length mem /\
    forall k, 0 <= k < zlen mem -> ~ (b <= k < e) -> octet mem' k = octet mem k.
Proof.
  intros F Hb He H128.
  destruct (enforce_full mem b e F Hb He) as (f & mem' & r & E & Hf & L & FB & A1 & A2 & R & O).
  { unfold continuation_octet. lia. }
  exists mem', r. split; [assumption|]. split; [assumption|]. intros k Hk N. rewrite O by lia.
  destruct (Z.leb_spec b k), (Z.ltb_spec k f), (Z.ltb_spec f k), (Z.leb_spec k e); cbn [andb]; try lia; try reflexivity.
  replace k with e in * by lia. unfold bad. replace (192 <=? octet mem e) with false by lia.
  cbn [andb]. rewrite andb_false_r. reflexivity.
Qed.
Lemma bounds_not_local : exists m1 m2 b e m' r,
  Forall octet_upto_FD m1 /\ Forall octet_upto_FD m2 /\ 0 <= b <= e /\ e < zlen m1 /\ e < zlen m2 /\
  (forall k, b <= k < e -> octet m1 k = octet m2 k) /\
  bounds_check m1 b e = Ok true /\ bounds_check m2 b e = Ok false /\
  bounds_enforce m2 b e = Ok (m', r) /\ octet m' e <> octet m2 e.
Proof.
  exists [0x61; 0x62; 0], [0x61; 0xC3; 0xA9; 0], 0, 1, [0x61; 63; 0xA9; 0], false.
  split; [repeat constructor; unfold octet_upto_FD; lia|].
  split; [repeat constructor; unfold octet_upto_FD; lia|].
  split; [lia|]. split; [reflexivity|]. split; [reflexivity|].
  split; [intros k Hk; replace k with 0 by lia; reflexivity|].
  split; [vm_compute; reflexivity|]. split; [vm_compute; reflexivity|].
  split; [vm_compute; reflexivity|]. vm_compute. discriminate.
Qed.

(** C18 *)
Lemma enforced_safe s : Forall octet_upto_FD s ->
  exists s' r, bounds_enforce (string_buffer s) 0 (zlen s) = Ok (string_buffer s', r) /\
    forall fuel,
    (forall u, iterate_codepoints fuel (utf8_ops (string_buffer s')) 0 (zlen s') <> UB u) /\
    (forall u, iterate_codepoints_for fuel (utf8_ops (string_buffer s')) 0 (zlen s') <> UB u).
Proof.
  intros F. destruct (enforce_string s (upto_FD_byte s F)) as (f & s' & r & EE & L & FB & Hf & A1 & A2 & R & O).
  exists s', r. split; [assumption|].
  assert (U : Forall octet_upto_FD s').
  { apply Forall_forall. intros x I. destruct (In_nth _ _ 0 I) as (n & Hn & <-).
    destruct (O (Z.of_nat n) ltac:(zl)) as (O1 & O2 & O3).
    assert (U0 : octet_upto_FD (octet s (Z.of_nat n))).
    { unfold octet. rewrite Nat2Z.id. rewrite Forall_forall in F. apply F. apply nth_In. lia. }
    replace (nth n s' 0) with (octet s' (Z.of_nat n)) by (unfold octet; rewrite Nat2Z.id; reflexivity).
    assert (D : cut_short s (Z.of_nat n) \/ ~ cut_short s (Z.of_nat n)) by (unfold cut_short; lia).
    unfold octet_upto_FD in *. destruct (Z.ltb_spec (Z.of_nat n) f); [rewrite O1 by lia; lia|].
    destruct (Z.eq_dec f (Z.of_nat n)); [rewrite O3 by lia; lia|].
    destruct (Z.leb_spec (zlen s - Z.of_nat n) 5); [|rewrite O3 by lia; lia].
    destruct D as [D|D]; [rewrite O2 by (try assumption; lia); lia|rewrite O3 by tauto; lia]. }
  assert (N : ~ continuation_octet (octet s' 0)).
  { destruct (Z.eq_dec (zlen s) 0).
    - destruct s'; [unfold octet, continuation_octet; cbn; lia|zl].
    - destruct (O 0 ltac:(zl)) as (O1 & _ & O3). destruct (Z.eq_dec f 0) as [->|].
      + rewrite O3 by lia. assumption.
      + rewrite O1 by lia. unfold continuation_octet. lia. }
  intros fuel. apply (byte_loop_safe s' _ (byte_env_string s' U (octet_string_first s' N)) fuel 0). zl.
Qed.
Lemma enforced_hangs : exists s s' r,
  Forall octet_upto_FD s /\
  bounds_enforce (string_buffer s) 0 (zlen s) = Ok (string_buffer s', r) /\
  forall fuel,
    iterate_codepoints fuel (utf8_ops (string_buffer s')) 0 (zlen s') = OutOfFuel.
Proof.
  exists [0x61; 0xE2; 0x82], [0x61; 0x3F; 0x82], false.
  split; [repeat constructor; unfold octet_upto_FD; lia|]. split; [vm_compute; reflexivity|].
  set (m := [0x61; 0x3F; 0x82]).
  assert (F : Forall octet_upto_FD m) by (repeat constructor; unfold octet_upto_FD; lia).
  assert (C : ~ continuation_octet (octet m 0)) by (unfold continuation_octet; change (octet m 0) with 0x61; lia).
  intros fuel. destruct (ends_or_never m F C) as [(cs & _ & _ & H)|(_ & H)]; [exfalso|apply H].
  pose proof (byte_env_string _ F (octet_string_first _ C)) as E.
  destruct (H 7%nat ltac:(cbn; lia)) as (H7 & _). vm_compute in H7. discriminate.
Qed.
