(** * Proofs: utf8_bounds on a view inside a larger buffer, and applied repeatedly *)
From Verif Require Import Prelude Utf8Model TextModel Utf8Spec RangeSpec Utf8Proofs LawfulProofs ByteProofs BoundsProofs ExactProofs.
Require Import ZifyBool ZifyNat.

Section View.
Context (before s after : list Z) (x : Z).
Let mem := before ++ s ++ x :: after.
Let b := zlen before.
Let e := zlen before + zlen s.
Context (F : Forall is_byte mem).

Lemma view_len : zlen mem = b + zlen s + 1 + zlen after.
Proof. unfold mem, b. zl. Qed.
Lemma view_octet k : 0 <= k < zlen s -> octet mem (b + k) = octet s k.
Proof. intros K. unfold mem, b. rewrite octet_app_r by lia. apply octet_app_l; lia. Qed.
Lemma view_end : octet mem e = x.
Proof. unfold mem, e. rewrite octet_app_r by apply zlen_nonneg. rewrite <- (Z.add_0_r (zlen s)), octet_app_r by lia. reflexivity. Qed.
Lemma view_bytes : Forall is_byte s.
Proof. unfold mem in F. apply Forall_app in F. destruct F as [_ G]. apply Forall_app in G. tauto. Qed.
Lemma view_x : is_byte x.
Proof. rewrite <- view_end. apply octet_byte. assumption. Qed.
Lemma bad_view k : 0 <= k < zlen s -> bad mem e (b + k) = bad (string_buffer s) (zlen s) k.
Proof. intros K. unfold bad. rewrite view_octet, octet_buffer by lia. unfold e, b. f_equal. lia. Qed.
Lemma bad_end : bad mem e e = (192 <=? x).
Proof. unfold bad. rewrite view_end. pose proof (announced_len_range x). lia. Qed.

Lemma check_view r : s <> [] -> bounds_check (string_buffer s) 0 (zlen s) = Ok r ->
  bounds_check mem b e = Ok (r && (x <? 192)).
Proof.
  intros NE R. assert (ZS : 0 < zlen s) by (destruct s; [contradiction|zl]). pose proof view_len as VL.
  pose proof (zlen_nonneg before) as NB. pose proof (zlen_nonneg after) as NA.
  destruct (check_iff mem b e F) as (r1 & -> & H1); [unfold b, e in *; lia|unfold b, e in *; lia|].
  destruct (check_iff (string_buffer s) 0 (zlen s) (buffer_bytes s view_bytes)) as (r2 & E2 & H2); [lia|rewrite buffer_len; lia|].
  rewrite R in E2. injection E2 as <-. f_equal.
  assert (X : r1 = true <-> r && (x <? 192) = true).
  { rewrite H1, andb_true_iff, H2. replace (octet mem b) with (octet (string_buffer s) 0).
    2: { rewrite octet_buffer, <- (view_octet 0) by lia. f_equal. lia. }
    split.
    - intros (A & B). split; [split; [assumption|]|].
      + intros p P P5. destruct (Z.eq_dec p (zlen s)) as [->|]; [apply bad_cut_short_false, not_cut_short_end|].
        rewrite <- bad_view by lia. apply B; unfold b, e in *; lia.
      + specialize (B e ltac:(unfold b, e in *; lia) ltac:(lia)). rewrite bad_end in B. lia.
    - intros ((A & B) & C). split; [assumption|]. intros p P P5.
      destruct (Z.eq_dec p e) as [->|]; [rewrite bad_end; lia|].
      replace p with (b + (p - b)) by lia. rewrite bad_view by (unfold b, e in *; lia). apply B; unfold b, e in *; lia. }
  destruct r1, (r && (x <? 192)); try reflexivity; [symmetry; apply X; reflexivity|apply X; reflexivity].
Qed.
Lemma check_empty_view : s = [] -> bounds_check mem b e = Ok (negb ((128 <=? x) && (x <? 192))).
Proof.
  intros S0. assert (EE : e = b) by (unfold e, b; rewrite S0; zl). pose proof view_len as VL.
  pose proof (zlen_nonneg before). pose proof (zlen_nonneg after). pose proof (zlen_nonneg s).
  unfold bounds_check. rewrite rd_octet by (unfold b in *; lia). rewrite <- EE at 1. rewrite view_end. cbn [bind].
  rewrite is_continuation_spec by apply view_x. unfold is_cont. destruct (_ && _); [reflexivity|]. cbn [check_loop negb].
  rewrite EE, Z.eqb_refl. reflexivity.
Qed.

(** enforce, when the loop over leading continuation octets stops inside of the range or at its end *)
Lemma enforce_view s' r : bounds_enforce (string_buffer s) 0 (zlen s) = Ok (string_buffer s', r) ->
  (Exists (fun o => ~ continuation_octet o) s ->
     bounds_enforce mem b e = Ok (before ++ s' ++ (if 192 <=? x then 63 else x) :: after, r && (x <? 192))) /\
  (Forall continuation_octet s -> ~ continuation_octet x ->
     bounds_enforce mem b e = Ok (before ++ s' ++ x :: after, r)).
Proof.
  intros R. destruct (enforce_string s view_bytes) as (f & t & r' & EE & L & FB & Hf & A1 & A2 & RR & O).
  rewrite R in EE. injection EE as E1 <-. unfold string_buffer in E1. apply app_inj_tail in E1. destruct E1 as [<- _].
  pose proof view_len as VL. pose proof (zlen_nonneg before) as NB. pose proof (zlen_nonneg after) as NA.
  assert (ZL : zlen s' = zlen s) by zl.
  assert (NC : f < zlen s \/ ~ continuation_octet x ->
    exists mem', bounds_enforce mem b e = Ok (mem', r && ((f =? zlen s) || (x <? 192))) /\ length mem' = length mem /\
      forall k, 0 <= k -> octet mem' k = octet (before ++ s' ++ (if (f <? zlen s) && (192 <=? x) then 63 else x) :: after) k).
  { intros D. assert (BN : exists b', b <= b' <= e /\ b' = b + f) by (exists (b + f); unfold b, e; lia).
    unfold bounds_enforce.
    assert (NCF : ~ continuation_octet (octet mem (b + f))).
    { destruct (Z.eq_dec f (zlen s)) as [Ef|Ef].
      - replace (b + f) with e by (unfold b, e; lia). rewrite view_end. destruct D; [lia|assumption].
      - rewrite view_octet by lia. assumption. }
    destruct (enforce_front_spec (b + f) (Z.to_nat f) mem b (S (length mem)) true F ltac:(lia) ltac:(unfold b; lia)) as
      (b' & m1 & -> & Hb' & L1 & F1 & B1 & B2 & O1); [unfold b in *; lia|assumption|unfold zlen in *; lia|]. cbn [bind].
    assert (b' = b + f).
    { destruct (Z.eq_dec b' (b + f)); [assumption|]. exfalso. apply B2. replace b' with (b + (b' - b)) by lia. rewrite view_octet by lia. apply A1. lia. }
    subst b'.
    destruct (enforce_back_spec (b + f) e ltac:(unfold b; lia) 6 m1 0 (true && (b + f =? b)) F1 ltac:(unfold e, b, zlen in *; lia) ltac:(unfold b, e in *; lia) ltac:(lia))
      as (m2 & r2 & E2 & L2 & F2 & R2 & O2).
    rewrite Z.sub_0_r in *. exists m2. rewrite E2. split; [|split; [lia|]].
    - do 2 f_equal.
      assert (X : r2 = true <-> r && ((f =? zlen s) || (x <? 192)) = true).
      { rewrite R2, (andb_true_iff r), RR.
        assert (BD : forall k, f < k <= zlen s -> bad m1 e (b + k) = bad mem e (b + k)).
        { intros k K. unfold bad. rewrite O1 by (unfold b; lia). destruct (Z.leb_spec b (b + k)), (Z.ltb_spec (b + k) (b + f)); try lia; reflexivity. }
        split.
        - intros (H1 & H2). assert (f = 0) by lia. split; [split; [assumption|]|].
          + intros p P P5. apply bad_cut_short_false. rewrite <- bad_view, <- BD by lia. apply H2; unfold b, e in *; lia.
          + destruct (Z.eqb_spec f (zlen s)); [reflexivity|]. specialize (H2 e ltac:(unfold b, e in *; lia) ltac:(lia)).
            replace e with (b + zlen s) in H2 at 2 by reflexivity. rewrite BD in H2 by lia. replace (b + zlen s) with e in H2 by reflexivity. rewrite bad_end in H2. lia.
        - intros ((H1 & H2) & H3). split; [lia|]. intros p P P5. replace p with (b + (p - b)) by lia. rewrite BD by (unfold b, e in *; lia).
          destruct (Z.eq_dec p e) as [->|].
          + replace (b + (e - b)) with e by lia. rewrite bad_end. unfold b, e in *; lia.
          + rewrite bad_view by (unfold b, e in *; lia). apply bad_cut_short_false, H2; unfold b, e in *; lia. }
      destruct r2, (r && ((f =? zlen s) || (x <? 192))); try reflexivity; [symmetry; apply X; reflexivity|apply X; reflexivity].
    - intros k K. rewrite O2 by lia.
      destruct (Z.ltb_spec k b) as [K1|K1].
      { destruct (Z.ltb_spec (b + f) k); [lia|]. cbn [andb]. rewrite O1 by lia. destruct (Z.leb_spec b k); [lia|]. cbn [andb].
        unfold mem. rewrite !octet_app_l by (unfold b in *; lia). reflexivity. }
      destruct (Z.ltb_spec k e) as [K2|K2].
      { assert (KK : 0 <= k - b < zlen s) by (unfold b, e in *; lia).
        replace (octet (before ++ _) k) with (octet s' (k - b)).
        2: { replace k with (b + (k - b)) at 2 by lia. unfold b. rewrite octet_app_r by (unfold b in *; lia). rewrite octet_app_l by (unfold b in *; lia). reflexivity. }
        destruct (O (k - b) KK) as (P1 & P2 & P3).
        destruct (Z.ltb_spec (b + f) k); cbn [andb].
        - replace (bad m1 e k) with (bad (string_buffer s) (zlen s) (k - b)).
          2: { rewrite <- bad_view by lia. replace (b + (k - b)) with k by lia. unfold bad. rewrite O1 by lia.
               destruct (Z.leb_spec b k), (Z.ltb_spec k (b + f)); try lia; reflexivity. }
          destruct (bad (string_buffer s) (zlen s) (k - b)) eqn:BD.
          + apply bad_cut_short in BD. destruct (Z.leb_spec k e); [|lia].
            destruct (Z.ltb_spec (e - k) (0 + Z.of_nat 6)); cbn [andb].
            * rewrite P2 by (try assumption; unfold b, e in *; lia). reflexivity.
            * rewrite P3 by (unfold b, e in *; lia). rewrite O1 by lia. destruct (Z.leb_spec b k), (Z.ltb_spec k (b + f)); try lia. cbn [andb].
              rewrite <- view_octet by lia. f_equal. lia.
          + rewrite andb_false_r. apply bad_cut_short_false in BD. rewrite P3 by (try lia; right; right; assumption).
            rewrite O1 by lia. destruct (Z.leb_spec b k), (Z.ltb_spec k (b + f)); try lia. cbn [andb].
            rewrite <- view_octet by lia. f_equal. lia.
        - rewrite O1 by lia. destruct (Z.leb_spec b k), (Z.ltb_spec k (b + f)); try lia; cbn [andb].
          + rewrite P1 by lia. reflexivity.
          + rewrite P3 by lia. rewrite <- view_octet by lia. f_equal. lia. }
      destruct (Z.eq_dec k e) as [->|K3].
      { replace (octet (before ++ _) e) with (if (f <? zlen s) && (192 <=? x) then 63 else x).
        2: { unfold e. rewrite octet_app_r by apply zlen_nonneg. rewrite <- ZL, <- (Z.add_0_r (zlen s')), octet_app_r by lia. reflexivity. }
        destruct (Z.ltb_spec (b + f) e), (Z.ltb_spec f (zlen s)); try (unfold b, e in *; lia); cbn [andb].
        - rewrite Z.leb_refl. destruct (Z.ltb_spec (e - e) (0 + Z.of_nat 6)); [|lia]. cbn [andb].
          replace (bad m1 e e) with (192 <=? x).
          2: { rewrite <- bad_end. unfold bad. rewrite O1 by lia. destruct (Z.leb_spec b e), (Z.ltb_spec e (b + f)); try lia; reflexivity. }
          destruct (192 <=? x); [reflexivity|]. rewrite O1 by lia. destruct (Z.leb_spec b e), (Z.ltb_spec e (b + f)); try lia. cbn [andb]. apply view_end.
        - rewrite O1 by lia. destruct (Z.leb_spec b e), (Z.ltb_spec e (b + f)); try lia. cbn [andb]. apply view_end. }
      { destruct (Z.leb_spec k e); [lia|]. rewrite andb_false_r. cbn [andb]. rewrite O1 by lia.
        destruct (Z.ltb_spec k (b + f)); [unfold b, e in *; lia|]. rewrite andb_false_r.
        unfold mem. replace k with (zlen before + (k - b)) by (unfold b; lia). rewrite !octet_app_r by (unfold b, e in *; lia).
        replace (octet (s' ++ _) (k - b)) with (octet ((if (f <? zlen s) && (192 <=? x) then 63 else x) :: after) (k - e)).
        2: { replace (k - b) with (zlen s' + (k - e)) by (unfold b, e in *; lia). rewrite octet_app_r by (unfold b, e in *; lia). reflexivity. }
        replace (k - b) with (zlen s + (k - e)) by (unfold b, e in *; lia). rewrite octet_app_r by (unfold b, e in *; lia).
        replace (k - e) with (k - e - 1 + 1) by lia. rewrite !octet_tail by lia. reflexivity. } }
  assert (EXT : forall m y, length m = length mem -> (forall k, 0 <= k -> octet m k = octet (before ++ s' ++ y :: after) k) ->
     m = before ++ s' ++ y :: after).
  { intros m y LM H. apply octet_ext; [|intros k K; apply H; lia]. rewrite LM. unfold mem. rewrite !app_length. cbn [length]. lia. }
  split.
  - intros EX. assert (f < zlen s).
    { destruct (Z.ltb_spec f (zlen s)); [assumption|]. exfalso. apply Exists_exists in EX. destruct EX as (o & I & N). apply N.
      apply (In_nth _ _ 0) in I. destruct I as (n & Hn & <-). specialize (A1 (Z.of_nat n) ltac:(zl)). unfold octet in A1. rewrite Nat2Z.id in A1. exact A1. }
    destruct NC as (m & -> & LM & O'); [left; assumption|].
    destruct (Z.ltb_spec f (zlen s)); [|lia]. cbn [andb] in O'. rewrite (EXT _ _ LM O'). do 3 f_equal.
    destruct (Z.eqb_spec f (zlen s)); [lia|]. reflexivity.
  - intros AL NX. assert (f = zlen s).
    { destruct (Z.eq_dec f (zlen s)); [assumption|]. exfalso. apply A2. rewrite Forall_forall in AL. apply AL. unfold octet. apply nth_In. zl. }
    destruct NC as (m & -> & LM & O'); [right; assumption|].
    destruct (Z.ltb_spec f (zlen s)); [lia|]. cbn [andb] in O'. rewrite (EXT _ _ LM O'). do 2 f_equal.
    destruct (Z.eqb_spec f (zlen s)); [|lia]. cbn [orb]. apply andb_true_r.
Qed.
End View.

(** ** enforce when every octet of the range and the octet after it are continuation octets *)
Lemma enforce_back_other n : forall mem b b2 p w ret,
  (forall k, 0 <= k < Z.of_nat n -> p - k <> b /\ p - k <> b2) ->
  enforce_back n mem b p w ret = enforce_back n mem b2 p w ret.
Proof.
  induction n as [|n IH]; intros mem b b2 p w ret H; cbn [enforce_back]; [reflexivity|].
  destruct (H 0 ltac:(lia)) as [H1 H2]. destruct (Z.eqb_spec p b); [lia|]. destruct (Z.eqb_spec p b2); [lia|].
  destruct (rd mem p) as [o|u|]; cbn [bind]; try reflexivity. destruct (codepoint_size o) as [z|u|]; cbn [bind]; try reflexivity.
  assert (H' : forall k, 0 <= k < Z.of_nat n -> p + -1 - k <> b /\ p + -1 - k <> b2).
  { intros k K. specialize (H (k + 1) ltac:(lia)). lia. }
  destruct (is_codepoint_start o && (z >? w)).
  - destruct (wr mem p 63) as [m|u|]; cbn [bind]; try reflexivity.
    unfold padd. destruct (_ && _); cbn [bind]; [|reflexivity]. apply IH. assumption.
  - cbn [bind]. unfold padd. destruct (_ && _); cbn [bind]; [|reflexivity]. apply IH. assumption.
Qed.
Lemma enforce_back_off n : forall mem b p w ret, Forall is_byte mem -> 0 <= p < Z.of_nat n -> p < b -> p < zlen mem ->
  enforce_back n mem b p w ret = UB BadPointer.
Proof.
  induction n as [|n IH]; intros mem b p w ret F Hp Hb Hm; [lia|]. cbn [enforce_back].
  destruct (Z.eqb_spec p b); [lia|]. rewrite rd_octet by lia. cbn [bind].
  rewrite codepoint_size_spec by (apply octet_byte; assumption). cbn [bind].
  assert (K : forall m r, Forall is_byte m -> zlen m = zlen mem ->
    (let* end_' := padd m p (-1) in enforce_back n m b end_' (w + 1) r) = UB BadPointer).
  { intros m r FM LM. destruct (Z.eq_dec p 0) as [->|].
    - unfold padd. destruct (Z.leb_spec 0 (0 + -1)); [lia|]. reflexivity.
    - rewrite padd_ok by lia. cbn [bind]. apply IH; try lia; assumption. }
  destruct (_ && _); [|cbn [bind]; apply K; [assumption|reflexivity]].
  destruct (wr_ok mem p 63 ltac:(lia)) as (m & -> & LM & OM). cbn [bind]. apply K; [|zl].
  apply bytes_of_octets. intros k Hk. rewrite OM by lia. destruct (Z.eqb_spec k p); [unfold is_byte; lia|]. apply octet_byte; assumption.
Qed.
Lemma enforce_runaway mem b e f : Forall is_byte mem -> 0 <= b <= e -> e < f -> f < zlen mem ->
  (forall k, b <= k < f -> continuation_octet (octet mem k)) -> ~ continuation_octet (octet mem f) ->
  (e <= 5 -> bounds_enforce mem b e = UB BadPointer) /\
  (6 <= e -> exists mem', bounds_enforce mem b e = Ok (mem', false) /\ length mem' = length mem /\
     forall k, 0 <= k < zlen mem ->
       let replaced := b <= k < f \/ (k < b /\ e - k <= 5 /\ 192 <= octet mem k /\ e < k + announced_len (octet mem k)) in
       (replaced -> octet mem' k = 63) /\ (~ replaced -> octet mem' k = octet mem k)).
Proof.
  intros F Hb Hf Hm A N. unfold bounds_enforce.
  destruct (enforce_front_spec f (Z.to_nat (f - b)) mem b (S (length mem)) true F ltac:(lia) ltac:(lia) Hm N ltac:(zl)) as
    (b' & m1 & -> & Hb' & L1 & F1 & B1 & B2 & O1). cbn [bind].
  assert (b' = f) by (destruct (Z.eq_dec b' f); [assumption|]; exfalso; apply B2, A; lia). subst b'.
  replace (true && (f =? b)) with false by lia.
  split; intros H.
  - apply enforce_back_off; [assumption|lia|lia|zl].
  - rewrite (enforce_back_other 6 m1 f (e - 6) e 0 false) by (intros; lia).
    destruct (enforce_back_spec (e - 6) e ltac:(lia) 6 m1 0 false F1 ltac:(zl) ltac:(lia) ltac:(lia)) as (m2 & r2 & E2 & L2 & F2 & R2 & O2).
    rewrite Z.sub_0_r in *. exists m2. rewrite E2.
    assert (r2 = false) by (destruct r2; [|reflexivity]; destruct R2 as [R2 _]; destruct (R2 eq_refl); discriminate). subst r2.
    split; [reflexivity|]. split; [lia|]. intros k K. cbv zeta. rewrite O2 by lia. unfold bad. rewrite !O1 by lia.
    pose proof (announced_len_range (octet mem k)). pose proof (A k) as AK. unfold continuation_octet in AK.
    destruct (Z.leb_spec b k), (Z.ltb_spec k f); cbn [andb]; try lia.
    + split; [intros _|lia]. destruct (_ && _); reflexivity.
    + replace (k <=? e) with false by lia. rewrite andb_false_r. cbn [andb]. split; [lia|reflexivity].
    + destruct (Z.ltb_spec (e - 6) k), (Z.leb_spec k e), (Z.ltb_spec (e - k) (0 + Z.of_nat 6)); cbn [andb]; try lia;
        destruct (Z.leb_spec 192 (octet mem k)), (Z.ltb_spec e (k + announced_len (octet mem k))); cbn [andb]; lia.
Qed.
Lemma enforce_off_end mem b e : Forall is_byte mem -> 0 <= b <= zlen mem ->
  (forall k, b <= k < zlen mem -> continuation_octet (octet mem k)) ->
  bounds_enforce mem b e = UB OobRead.
Proof.
  intros F Hb A. unfold bounds_enforce.
  assert (FR : forall n m b fuel ret, Forall is_byte m -> (Z.to_nat (zlen m - b) <= n)%nat -> (n < fuel)%nat -> 0 <= b <= zlen m ->
     (forall k, b <= k < zlen m -> continuation_octet (octet m k)) -> enforce_front fuel m b ret = UB OobRead).
  { clear. induction n as [|n IH]; intros m b fuel ret F L Hf Hb A; (destruct fuel as [|fuel]; [lia|]); cbn [enforce_front].
    - replace b with (zlen m) by lia. unfold rd. destruct (Z.ltb_spec (zlen m) 0); [zl|].
      destruct (nth_error m (Z.to_nat (zlen m))) eqn:N; [|reflexivity].
      assert (Z.to_nat (zlen m) < length m)%nat by (apply nth_error_Some; congruence). zl.
    - destruct (Z.eq_dec b (zlen m)) as [->|NE].
      { unfold rd. destruct (Z.ltb_spec (zlen m) 0); [zl|].
        destruct (nth_error m (Z.to_nat (zlen m))) eqn:N; [|reflexivity].
        assert (Z.to_nat (zlen m) < length m)%nat by (apply nth_error_Some; congruence). zl. }
      rewrite rd_octet by lia. cbn [bind]. rewrite is_continuation_spec by (apply octet_byte; assumption).
      rewrite (proj2 (is_cont_iff _)) by (apply A; lia).
      destruct (wr_ok m b 63 ltac:(lia)) as (m' & -> & LM & OM). cbn [bind].
      assert (ZM : zlen m' = zlen m) by zl. rewrite padd_ok by lia. cbn [bind]. apply IH; try lia.
      + apply bytes_of_octets. intros k Hk. rewrite OM by lia. destruct (Z.eqb_spec k b); [unfold is_byte; lia|]. apply octet_byte; assumption.
      + intros k K. rewrite OM by lia. destruct (Z.eqb_spec k b); [lia|]. apply A. lia. }
  rewrite (FR (length mem)); try assumption; try lia; [reflexivity|zl].
Qed.

(** ** enforce applied repeatedly *)
Lemma enforced_first s s' r : Forall is_byte s -> bounds_enforce (string_buffer s) 0 (zlen s) = Ok (string_buffer s', r) ->
  Forall is_byte s' /\ length s' = length s /\ ~ continuation_octet (octet s' 0).
Proof.
  intros F R. destruct (enforce_string s F) as (f & t & r' & EE & L & FB & Hf & A1 & A2 & RR & O).
  rewrite R in EE. injection EE as E1 <-. unfold string_buffer in E1. apply app_inj_tail in E1. destruct E1 as [<- _].
  split; [assumption|]. split; [assumption|].
  destruct (Z.eq_dec (zlen s) 0).
  - destruct s'; [unfold octet, continuation_octet; cbn; lia|zl].
  - destruct (O 0 ltac:(zl)) as (O1 & _ & O3). destruct (Z.eq_dec f 0) as [->|].
    + rewrite O3 by lia. assumption.
    + rewrite O1 by lia. unfold continuation_octet. lia.
Qed.
Lemma enforce_twice s : Forall is_byte s -> exists s1 r1 s2 r2,
  bounds_enforce (string_buffer s) 0 (zlen s) = Ok (string_buffer s1, r1) /\
  bounds_enforce (string_buffer s1) 0 (zlen s1) = Ok (string_buffer s2, r2) /\
  bounds_check (string_buffer s2) 0 (zlen s2) = Ok true /\
  bounds_enforce (string_buffer s2) 0 (zlen s2) = Ok (string_buffer s2, true) /\
  (~ continuation_octet (octet s 0) -> s2 = s1).
Proof.
  intros F. destruct (enforce_agrees s F) as (r1 & s1 & _ & E1 & _).
  destruct (enforced_first s s1 r1 F E1) as (F1 & L1 & N1).
  destruct (enforce_then_check s1 F1 N1) as (s2 & r2 & E2 & C2).
  destruct (enforced_first s1 s2 r2 F1 E2) as (F2 & L2 & N2).
  exists s1, r1, s2, r2. split; [assumption|]. split; [assumption|]. split; [assumption|].
  destruct (enforce_agrees s2 F2) as (r3 & s3 & C3 & E3 & X3 & _). rewrite C2 in C3. injection C3 as <-. rewrite E3, (X3 eq_refl).
  split; [reflexivity|]. intros N. destruct (enforce_then_check s F N) as (t & r & E1' & C1). rewrite E1 in E1'. injection E1' as E1' <-.
  unfold string_buffer in E1'. apply app_inj_tail in E1'. destruct E1' as [<- _].
  destruct (enforce_agrees s1 F1) as (r4 & s4 & C4 & E4 & X4 & _). rewrite C1 in C4. injection C4 as <-. rewrite (X4 eq_refl), E2 in E4. injection E4 as E4 _.
  unfold string_buffer in E4. apply app_inj_tail in E4. tauto.
Qed.
