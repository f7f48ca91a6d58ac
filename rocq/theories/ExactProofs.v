(** * Proofs: exact conditions for iterator equality, termination and enforce on arbitrary octets *)
From Verif Require Import Prelude Utf8Model TextModel Utf8Spec Utf8Proofs LawfulProofs ByteProofs BoundsProofs.
Require Import ZifyBool ZifyNat.

(** ** operator== *)
Lemma eq_loop_behind n : forall mem p q, q < p -> 0 <= p <= zlen mem ->
  eq_loop n mem p q = if p + Z.of_nat n <=? zlen mem then Ok false else UB BadPointer.
Proof.
  induction n as [|n IH]; intros mem p q Hq Hp; cbn [eq_loop].
  - destruct (Z.leb_spec (p + Z.of_nat 0) (zlen mem)); [reflexivity|lia].
  - destruct (Z.eqb_spec p q); [lia|]. destruct (Z.leb_spec (p + 1) (zlen mem)) as [L|L].
    + rewrite padd_ok by lia. cbn [bind]. rewrite IH by lia.
      replace (p + 1 + Z.of_nat n) with (p + Z.of_nat (S n)) by lia. reflexivity.
    + unfold padd. destruct (Z.leb_spec (p + Z.of_nat (S n)) (zlen mem)); [lia|].
      destruct (Z.leb_spec 0 (p + 1)), (Z.leb_spec (p + 1) (zlen mem)); try lia. reflexivity.
Qed.
Lemma byte_eq_any s mem p q r : byte_env s mem -> 0 <= p <= zlen s -> 0 <= q <= zlen s -> closest_lead mem p r ->
  it_eq mem p q = if q <? r then (if r + announced_len (octet mem r) <=? zlen s + 1 then Ok false else UB BadPointer)
                  else Ok (q <? r + announced_len (octet mem r)).
Proof.
  intros E Hp Hq Hr. pose proof (be_is_byte _ _ E) as FB. pose proof (be_len _ _ E) as LE.
  destruct (rewind_bytes mem p FB (be_first _ _ E) ltac:(lia)) as (r' & Hr' & Hrw).
  assert (r' = r) by (eapply closest_lead_unique; eassumption). subst r'.
  unfold it_eq. rewrite Hrw. cbn [bind]. destruct Hr as (R1 & _ & _).
  rewrite rd_octet by lia. cbn [bind]. rewrite codepoint_size_spec by (apply octet_byte; assumption).
  cbn [bind]. pose proof (announced_len_range (octet mem r)).
  destruct (Z.ltb_spec q r).
  - rewrite eq_loop_behind by lia. rewrite LE. replace (Z.of_nat (Z.to_nat (announced_len (octet mem r)))) with (announced_len (octet mem r)) by lia.
    reflexivity.
  - rewrite eq_loop_bytes by lia. f_equal. lia.
Qed.

(** Completeness by positions. *)
Definition closed_at (mem : list Z) (e : Z) : Prop :=
  (forall p, 0 <= p < e -> ~ continuation_octet (octet mem p) ->
     p + announced_len (octet mem p) <= e /\
     forall k, p < k < p + announced_len (octet mem p) -> continuation_octet (octet mem k)) /\
  (forall p, 0 <= p < e -> ~ stray mem p).
Lemma octet_tail (a : Z) s p : 0 <= p -> octet (a :: s) (p + 1) = octet s p.
Proof. intros H. unfold octet. replace (Z.to_nat (p + 1)) with (S (Z.to_nat p)) by lia. reflexivity. Qed.
Lemma octet_app_l (a b : list Z) p : p < zlen a -> 0 <= p -> octet (a ++ b) p = octet a p.
Proof. intros H G. unfold octet. apply app_nth1. zl. Qed.
Lemma octet_app_r (a b : list Z) p : 0 <= p -> octet (a ++ b) (zlen a + p) = octet b p.
Proof. intros H. unfold octet. rewrite app_nth2 by zl. f_equal. zl. Qed.

Lemma complete_first os : Forall complete_sequence os -> ~ continuation_octet (octet (concat os) 0).
Proof.
  destruct 1 as [|o os (l & t & -> & N & _)]; cbn; [unfold continuation_octet, octet; cbn; lia|]. exact N.
Qed.
Lemma stray_shift o t p : ~ continuation_octet (octet t 0) -> zlen o <= p -> stray (o ++ t) p -> stray t (p - zlen o).
Proof.
  intros N H (r & (R1 & R2 & R3) & R4).
  assert (G : zlen o <= r).
  { destruct (Z.leb_spec (zlen o) r); [assumption|]. exfalso. apply N. rewrite <- (octet_app_r o t 0) by lia. apply R3. lia. }
  assert (SH : forall k, zlen o <= k -> octet (o ++ t) k = octet t (k - zlen o)).
  { intros k K. rewrite <- (octet_app_r o t (k - zlen o)) by lia. f_equal. lia. }
  exists (r - zlen o). rewrite SH in R2, R4 by lia. split; [|lia]. split; [lia|]. split; [assumption|].
  intros k K. specialize (R3 (k + zlen o) ltac:(lia)). rewrite SH in R3 by lia. replace (k + zlen o - zlen o) with k in R3 by lia. assumption.
Qed.
Lemma complete_closed os : Forall complete_sequence os -> closed_at (concat os) (zlen (concat os)).
Proof.
  induction 1 as [|o os C F IH]; [split; intros p P; cbn in P; lia|]. cbn [concat].
  pose proof (complete_first os F) as NF. destruct IH as [I1 I2].
  destruct C as (l & t & Eo & Nl & Ft & L). assert (LO : zlen o = announced_len l) by exact L.
  assert (O0 : octet o 0 = l) by (subst o; reflexivity).
  assert (OC : forall k, 0 < k < zlen o -> continuation_octet (octet o k)).
  { intros k K. subst o. replace k with (k - 1 + 1) by lia. rewrite octet_tail by lia. rewrite Forall_forall in Ft. apply Ft.
    unfold octet. apply nth_In. zl. }
  assert (ZO : 0 < zlen o) by (subst o; zl).
  assert (ZT : zlen (o ++ concat os) = zlen o + zlen (concat os)) by (unfold zlen; rewrite app_length; lia).
  assert (SH : forall k, zlen o <= k -> octet (o ++ concat os) k = octet (concat os) (k - zlen o)).
  { intros k K. rewrite <- (octet_app_r o (concat os) (k - zlen o)) by lia. f_equal. lia. }
  split.
  - intros p P N. destruct (Z.ltb_spec p (zlen o)) as [Q|Q].
    + rewrite octet_app_l in N |- * by lia. assert (p = 0) by (destruct (Z.eq_dec p 0); [assumption|]; exfalso; apply N, OC; lia). subst p.
      rewrite O0. split; [rewrite <- LO; pose proof (Zle_0_nat (length (concat os))); unfold zlen in *; lia|].
      intros k K. rewrite octet_app_l by lia. apply OC. lia.
    + rewrite SH in N |- * by lia. destruct (I1 (p - zlen o) ltac:(lia) N) as [J1 J2]. split; [lia|].
      intros k K. rewrite SH by lia. apply J2. lia.
  - intros p P S. destruct (Z.ltb_spec p (zlen o)) as [Q|Q].
    + destruct S as (r & (R1 & R2 & R3) & R4). rewrite octet_app_l in R2, R4 by lia.
      assert (r = 0) by (destruct (Z.eq_dec r 0); [assumption|]; exfalso; apply R2, OC; lia). subst r. rewrite O0 in R4. lia.
    + apply (I2 (p - zlen o)); [lia|]. apply stray_shift; assumption.
Qed.
Lemma octet_outside s k : zlen s <= k -> octet s k = 0.
Proof. intros H. unfold octet. apply nth_overflow. zl. Qed.
Lemma closed_complete n : forall s, (length s <= n)%nat -> ~ continuation_octet (octet s 0) ->
  closed_at s (zlen s) -> complete_text s.
Proof.
  induction n as [|n IH]; intros s Hn NC [C1 C2].
  - destruct s; [|cbn in Hn; lia]. exists []. split; [reflexivity|constructor].
  - destruct s as [|l s']; [exists []; split; [reflexivity|constructor]|]. set (s := l :: s') in *.
    assert (Z1 : 0 < zlen s) by (subst s; zl).
    destruct (C1 0 ltac:(lia) NC) as [D1 D2]. pose proof (announced_len_range (octet s 0)) as AR.
    set (L := announced_len (octet s 0)) in *.
    set (o := firstn (Z.to_nat L) s). set (t := skipn (Z.to_nat L) s).
    assert (ST : s = o ++ t) by (symmetry; apply firstn_skipn).
    assert (LO : zlen o = L) by (subst o; unfold zlen in *; rewrite firstn_length; lia).
    assert (LT : (length t <= n)%nat) by (subst t; rewrite skipn_length; subst s; cbn [length] in *; lia).
    assert (ZT : zlen s = L + zlen t) by (rewrite <- LO, ST at 1; unfold zlen; rewrite app_length; lia).
    assert (SH : forall k, 0 <= k -> octet t k = octet s (L + k)).
    { intros k K. rewrite ST at 1. rewrite <- LO. symmetry. apply octet_app_r. assumption. }
    assert (NT : ~ continuation_octet (octet t 0)).
    { destruct (Z.eq_dec (zlen t) 0); [rewrite octet_outside by lia; unfold continuation_octet; lia|].
      intros C. rewrite SH in C by lia. replace (L + 0) with L in C by lia. apply (C2 L); [lia|].
      exists 0. split; [|fold L; lia]. split; [lia|]. split; [assumption|]. intros k K. destruct (Z.eq_dec k L) as [->|]; [assumption|]. apply D2. lia. }
    destruct (IH t LT NT) as (os & Eos & Fos).
    { split.
      - intros p P N. rewrite SH in N |- * by lia. destruct (C1 (L + p) ltac:(lia) N) as [J1 J2]. split; [lia|].
        intros k K. rewrite SH by lia. apply J2. lia.
      - intros p P (r & (R1 & R2 & R3) & R4). apply (C2 (L + p)); [lia|]. exists (L + r). rewrite SH in R2, R4 by lia.
        split; [|lia]. split; [lia|]. split; [assumption|]. intros k K. replace k with (L + (k - L)) by lia. rewrite <- SH by lia. apply R3. lia. }
    exists (o :: os). cbn [concat]. split; [rewrite <- Eos; assumption|]. constructor; [|assumption].
    subst s. exists l, (firstn (Z.to_nat (L - 1)) s'). split; [|split; [assumption|split]].
    + subst o. replace (Z.to_nat L) with (S (Z.to_nat (L - 1))) by lia. reflexivity.
    + rewrite Forall_forall. intros x I. apply (In_nth _ _ 0) in I. destruct I as (k & K & <-). rewrite firstn_length in K.
      specialize (D2 (Z.of_nat k + 1) ltac:(lia)). rewrite octet_tail in D2 by lia. unfold octet in D2. rewrite Nat2Z.id in D2.
      destruct (nth_lt_some s' k ltac:(lia)) as [x E]. rewrite (nth_error_nth _ _ _ E) in D2.
      rewrite (nth_error_nth (firstn _ s') k 0 (x := x)) by (rewrite nth_error_firstn by lia; assumption). assumption.
    + unfold zlen in LO. rewrite LO. reflexivity.
Qed.
Lemma closed_iff_complete s : ~ continuation_octet (octet s 0) -> (complete_text s <-> closed_at s (zlen s)).
Proof.
  intros N. split; [|apply (closed_complete (length s)); auto]. intros (os & -> & F). apply complete_closed. assumption.
Qed.

Lemma stray_buffer s p : stray (string_buffer s) p <-> stray s p.
Proof.
  unfold stray, closest_lead. split; intros (r & (R1 & R2 & R3) & R4); exists r; rewrite octet_buffer in *; (split; [|assumption]);
    (split; [assumption|]); (split; [assumption|]); intros k K; specialize (R3 k K); rewrite octet_buffer in *; assumption.
Qed.
Lemma equality_symmetric_iff s : Forall octet_upto_FD s -> ~ continuation_octet (octet s 0) ->
  ((forall p q, 0 <= p <= zlen s -> 0 <= q <= zlen s -> it_eq (string_buffer s) p q = it_eq (string_buffer s) q p) <-> complete_text s).
Proof.
  intros F N. pose proof (byte_env_string s F (octet_string_first s N)) as E. set (mem := string_buffer s) in *.
  rewrite (closed_iff_complete s N).
  assert (OB : forall k, octet mem k = octet s k) by (intros; apply octet_buffer).
  assert (OE : ~ continuation_octet (octet mem (zlen s))) by (rewrite OB, octet_end; unfold continuation_octet; lia).
  assert (SELF : forall r, 0 <= r <= zlen s -> ~ continuation_octet (octet mem r) -> closest_lead mem r r).
  { intros r R C. split; [lia|]. split; [assumption|]. intros k K. lia. }
  split.
  - intros SY. split.
    + intros p P C. rewrite <- OB in *. pose proof (announced_len_range (octet mem p)) as AR.
      assert (K : forall k, p < k < p + announced_len (octet mem p) -> k <= zlen s -> continuation_octet (octet mem k)).
      { intros k K KE. assert (D : continuation_octet (octet mem k) \/ ~ continuation_octet (octet mem k)) by (unfold continuation_octet; lia).
        destruct D as [D|D]; [assumption|exfalso]. specialize (SY p k ltac:(lia) ltac:(lia)).
        rewrite (byte_eq_any s mem p k p E), (byte_eq_any s mem k p k E) in SY by (try lia; apply SELF; (lia || assumption)).
        destruct (Z.ltb_spec k p); [lia|]. destruct (Z.ltb_spec p k); [|lia]. destruct (Z.ltb_spec k (p + announced_len (octet mem p))); [|lia].
        destruct (_ <=? _) in SY; discriminate SY. }
      destruct (Z.leb_spec (p + announced_len (octet mem p)) (zlen s)) as [Q|Q].
      * split; [assumption|]. intros k H. rewrite <- OB. apply K; lia.
      * exfalso. apply OE, K; lia.
    + intros p P S. apply stray_buffer in S. fold mem in S. destruct S as (r & CL & R4). pose proof (announced_len_range (octet mem r)) as AR.
      destruct CL as (R1 & R2 & R3). assert (CL : closest_lead mem p r) by (split; [assumption|split; assumption]).
      specialize (SY p r ltac:(lia) ltac:(lia)). rewrite (byte_eq_any s mem p r r E), (byte_eq_any s mem r p r E) in SY by (try lia; try assumption; apply SELF; (lia || assumption)).
      destruct (Z.ltb_spec r r); [lia|]. destruct (Z.ltb_spec p r); [lia|].
      destruct (Z.ltb_spec r (r + announced_len (octet mem r))); [|lia]. destruct (Z.ltb_spec p (r + announced_len (octet mem r))); [lia|discriminate SY].
  - intros [C1 C2].
    assert (X : forall p, 0 <= p <= zlen s -> exists r, closest_lead mem p r /\ r <= p < r + announced_len (octet mem r) /\
      r + announced_len (octet mem r) <= zlen s + 1 /\ forall k, r < k < r + announced_len (octet mem r) -> continuation_octet (octet mem k)).
    { intros p P. destruct (closest_lead_exists s mem p E P) as (r & CL). exists r. split; [assumption|].
      destruct CL as (R1 & R2 & R3). assert (CL : closest_lead mem p r) by (split; [assumption|split; assumption]).
      destruct (Z.eq_dec r (zlen s)) as [->|NE].
      - rewrite OB, octet_end. change (announced_len 0) with 1. split; [lia|]. split; [lia|]. intros k K. lia.
      - destruct (C1 r ltac:(lia)) as [D1 D2]; [rewrite <- OB; assumption|]. rewrite <- OB in D1, D2.
        split; [split; [lia|]|split; [lia|intros k K; rewrite OB; apply D2; lia]].
        destruct (Z.ltb_spec p (r + announced_len (octet mem r))) as [Q|Q]; [assumption|exfalso].
        assert (SP : stray mem p) by (exists r; split; assumption).
        destruct (Z.eq_dec p (zlen s)) as [->|]; [apply OE, R3; lia|]. apply (C2 p); [lia|]. apply stray_buffer. assumption. }
    intros p q P Q. destruct (X p P) as (r & CL & A & B & C). destruct (X q Q) as (r' & CL' & A' & B' & C').
    rewrite (byte_eq_any s mem p q r E P Q CL), (byte_eq_any s mem q p r' E Q P CL').
    destruct (Z.lt_trichotomy r r') as [L|[L|L]].
    + assert (r + announced_len (octet mem r) <= r').
      { destruct (Z.leb_spec (r + announced_len (octet mem r)) r'); [assumption|exfalso]. destruct CL' as (_ & N' & _). apply N', C. lia. }
      repeat (match goal with |- context [Z.ltb ?a ?b] => destruct (Z.ltb_spec a b) | |- context [Z.leb ?a ?b] => destruct (Z.leb_spec a b) end; try lia); reflexivity.
    + subst r'. destruct (Z.ltb_spec q r), (Z.ltb_spec p r), (Z.ltb_spec q (r + announced_len (octet mem r))), (Z.ltb_spec p (r + announced_len (octet mem r))); lia || reflexivity.
    + assert (r' + announced_len (octet mem r') <= r).
      { destruct (Z.leb_spec (r' + announced_len (octet mem r')) r); [assumption|exfalso]. destruct CL as (_ & N' & _). apply N', C'. lia. }
      repeat (match goal with |- context [Z.ltb ?a ?b] => destruct (Z.ltb_spec a b) | |- context [Z.leb ?a ?b] => destruct (Z.leb_spec a b) end; try lia); reflexivity.
Qed.
Lemma equality_meaning s p q r : Forall octet_upto_FD s -> ~ continuation_octet (octet s 0) ->
  0 <= p <= zlen s -> 0 <= q <= zlen s -> closest_lead (string_buffer s) p r ->
  let stop := r + announced_len (octet s r) in
  (it_eq (string_buffer s) p q = Ok true <-> r <= q < stop) /\
  (it_eq (string_buffer s) p q = UB BadPointer <-> q < r /\ zlen s + 1 < stop) /\
  (it_eq (string_buffer s) p q = Ok false <-> stop <= q \/ (q < r /\ stop <= zlen s + 1)).
Proof.
  intros F N P Q CL stop. pose proof (byte_env_string s F (octet_string_first s N)) as E.
  rewrite (byte_eq_any s _ p q r E P Q CL). rewrite octet_buffer. fold stop. pose proof (announced_len_range (octet s r)).
  assert (r < stop) by (subst stop; lia).
  destruct (Z.ltb_spec q r); [destruct (Z.leb_spec stop (zlen s + 1))|destruct (Z.ltb_spec q stop)];
    repeat split; intros; try discriminate; try lia; reflexivity.
Qed.

(** ** Termination *)
Lemma visited_range s mem p : byte_env s mem -> visited mem (zlen s) p -> 0 <= p <= zlen s.
Proof.
  intros E V. induction V as [|p r V IH CL L]; [zl|]. pose proof (announced_len_range (octet mem r)). destruct CL. lia.
Qed.
Lemma hang_from s mem p : byte_env s mem -> visited mem (zlen s) p ->
  (forall fuel, iterate_codepoints fuel (utf8_ops mem) p (zlen s) = OutOfFuel /\
     iterate_codepoints_for fuel (utf8_ops mem) p (zlen s) = OutOfFuel) ->
  forall fuel, iterate_codepoints fuel (utf8_ops mem) 0 (zlen s) = OutOfFuel /\
     iterate_codepoints_for fuel (utf8_ops mem) 0 (zlen s) = OutOfFuel.
Proof.
  intros E V. induction V as [|p r V IH CL L]; intros H; [assumption|]. apply IH. intros [|f]; [split; reflexivity|].
  destruct (byte_step s mem p r f E (visited_range _ _ _ E V) CL) as (_ & B). destruct (B L) as (c & _ & -> & ->).
  destruct (H f) as [-> ->]. split; reflexivity.
Qed.
Lemma visits_stray s mem : byte_env s mem -> forall n p, visited mem (zlen s) p -> zlen s - p = Z.of_nat n ->
  (exists cs, forall fuel, (n < fuel)%nat ->
     iterate_codepoints fuel (utf8_ops mem) p (zlen s) = Ok cs /\
     iterate_codepoints_for fuel (utf8_ops mem) p (zlen s) = Ok cs) \/
  (exists x, visited mem (zlen s) x /\ stray mem x).
Proof.
  intros E n. induction n as [n IH] using (well_founded_induction lt_wf). intros p V Hn.
  pose proof (visited_range _ _ _ E V) as Hp.
  destruct (closest_lead_exists s mem p E Hp) as (r & Hr).
  destruct (Z.leb_spec (r + announced_len (octet mem r)) p) as [Q|Q].
  - right. exists p. split; [assumption|]. exists r. split; assumption.
  - destruct (Z.ltb_spec (zlen s) (r + announced_len (octet mem r))) as [L|L].
    + left. exists []. intros [|f] Hf; [lia|]. exact (proj1 (byte_step s mem p r f E Hp Hr) L).
    + destruct (byte_deref s mem p r E Hp Hr L) as (c & DE & HC).
      destruct (IH (Z.to_nat (zlen s - (r + announced_len (octet mem r)))) ltac:(lia) (r + announced_len (octet mem r)))
        as [(cs & A)|X]; [econstructor; eassumption|lia| |right; exact X].
      left. exists (c :: cs). intros [|f] Hf; [lia|]. destruct (A f ltac:(lia)) as (A1 & A2).
      cbn [iterate_codepoints iterate_codepoints_for]. unfold op_neq, op_step. cbn [op_eq op_postinc op_deref utf8_ops]. unfold it_postinc.
      rewrite (byte_eq s mem p r E Hp Hr). cbn [bind].
      destruct (Z.ltb_spec (zlen s) (r + announced_len (octet mem r))); [lia|]. cbn [negb]. rewrite DE.
      rewrite (byte_inc s mem p r E Hp Hr L). cbn [bind]. rewrite ?DE. cbn [bind]. rewrite A1. split; [reflexivity|].
      assert (Hrr : closest_lead mem r r).
      { destruct Hr as (R1 & R2 & R3). split; [lia|]. split; [assumption|]. intros k Hk. lia. }
      rewrite (byte_inc s mem r r E) by (try assumption; destruct Hr; lia). cbn [bind]. rewrite A2. reflexivity.
Qed.
Lemma terminates_iff s : Forall octet_upto_FD s -> ~ continuation_octet (octet s 0) ->
  ((exists fuel cs, iterate_codepoints fuel (utf8_ops (string_buffer s)) 0 (zlen s) = Ok cs) <->
   forall p, visited (string_buffer s) (zlen s) p -> ~ stray (string_buffer s) p) /\
  ((exists fuel cs, iterate_codepoints_for fuel (utf8_ops (string_buffer s)) 0 (zlen s) = Ok cs) <->
   forall p, visited (string_buffer s) (zlen s) p -> ~ stray (string_buffer s) p).
Proof.
  intros F N. pose proof (byte_env_string s F (octet_string_first s N)) as E.
  split; (split; [intros (fuel & cs & R) p V S|intros NS]).
  1,3: destruct (hang_from s _ p E V (fun fuel => byte_loop_stray s _ E fuel p (visited_range _ _ _ E V) S) fuel) as [A B]; congruence.
  all: destruct (visits_stray s _ E (length s) 0 (visited_begin _ _)) as [(cs & A)|(x & V & S)]; [zl| |exfalso; exact (NS x V S)];
    destruct (A (Datatypes.S (length s)) ltac:(lia)) as [A1 A2]; eauto.
Qed.

(** ** enforce *)
Lemma enforced_check_iff s : Forall is_byte s ->
  exists s' r, bounds_enforce (string_buffer s) 0 (zlen s) = Ok (string_buffer s', r) /\
    (bounds_check (string_buffer s') 0 (zlen s') = Ok true <->
     ~ exists k, 1 <= k /\ (forall i, 0 <= i < k -> continuation_octet (octet s i)) /\ zlen s - k <= 5 /\ cut_short s k).
Proof.
  intros F. destruct (enforce_string s F) as (f & s' & r & EE & L & FB & Hf & A1 & A2 & R & O).
  exists s', r. split; [assumption|]. rewrite (check_meaning s' FB).
  assert (ZL : zlen s' = zlen s) by zl. rewrite ZL. split.
  - intros [_ H] (k & K1 & K2 & K3 & K4).
    assert (KZ : k < zlen s).
    { destruct (Z.ltb_spec k (zlen s)); [assumption|]. exfalso. destruct K4 as [K4 _]. rewrite octet_outside in K4 by lia. lia. }
    assert (k = f).
    { destruct (Z.lt_trichotomy k f) as [D|[D|D]]; [exfalso|assumption|exfalso; apply A2, K2; lia].
      specialize (A1 k ltac:(lia)). destruct K4 as [K4 _]. unfold continuation_octet in A1. lia. }
    subst k. apply (H f); [lia|assumption|]. destruct (O f ltac:(lia)) as (_ & _ & O3). unfold cut_short in *.
    rewrite O3 by lia. zl.
  - intros H. split.
    + destruct (Z.eq_dec (zlen s) 0) as [Z0|Z0].
      * rewrite octet_outside by lia. unfold continuation_octet. lia.
      * destruct (O 0 ltac:(zl)) as (O1 & _ & O3). destruct (Z.eq_dec f 0) as [->|].
        -- rewrite O3 by lia. assumption.
        -- rewrite O1 by lia. unfold continuation_octet. lia.
    + intros p P P5 CS. destruct (O p ltac:(lia)) as (O1 & O2 & O3).
      assert (D : cut_short s p \/ ~ cut_short s p) by (unfold cut_short; lia).
      destruct (Z.ltb_spec p f); [destruct CS as [CS _]; rewrite O1 in CS by lia; lia|].
      destruct D as [D|D].
      * destruct (Z.eq_dec f p) as [->|NE]; [|destruct CS as [CS _]; rewrite O2 in CS by (assumption || lia); lia].
        apply H. exists p. split; [lia|]. split; [assumption|]. split; assumption.
      * apply D. specialize (O3 ltac:(lia) ltac:(right; right; assumption)). unfold cut_short in *. rewrite O3 in CS. zl.
Qed.
Lemma enforced_terminates_iff s : Forall octet_upto_FD s ->
  exists s' r, bounds_enforce (string_buffer s) 0 (zlen s) = Ok (string_buffer s', r) /\ length s' = length s /\
    ((exists fuel cs, iterate_codepoints fuel (utf8_ops (string_buffer s')) 0 (zlen s') = Ok cs) <->
     forall p, visited (string_buffer s') (zlen s') p -> ~ stray (string_buffer s') p).
Proof.
  intros F. destruct (enforce_string s (upto_FD_byte s F)) as (f & s' & r & EE & L & FB & Hf & A1 & A2 & R & O).
  exists s', r. split; [assumption|]. split; [assumption|].
  assert (U : Forall octet_upto_FD s').
  { apply Forall_forall. intros x I. destruct (In_nth _ _ 0 I) as (n & Hn & <-).
    destruct (O (Z.of_nat n) ltac:(zl)) as (O1 & O2 & O3).
    assert (U0 : octet_upto_FD (octet s (Z.of_nat n))).
    { unfold octet. rewrite Nat2Z.id. rewrite Forall_forall in F. apply F. apply nth_In. lia. }
    replace (nth n s' 0) with (octet s' (Z.of_nat n)) by (unfold octet; rewrite Nat2Z.id; reflexivity).
    assert (D : cut_short s (Z.of_nat n) \/ ~ cut_short s (Z.of_nat n)) by (unfold cut_short; lia).
    unfold octet_upto_FD in *. destruct (Z.ltb_spec (Z.of_nat n) f); [rewrite O1 by lia; lia|].
    destruct (Z.eq_dec f (Z.of_nat n)); [rewrite O3 by lia; lia|].
    destruct (Z.leb_spec (zlen s - Z.of_nat n) 5); [|rewrite O3 by lia; lia].
    destruct D as [D|D]; [rewrite O2 by (try assumption; lia); lia|rewrite O3 by tauto; lia]. }
  assert (N : ~ continuation_octet (octet s' 0)).
  { destruct (Z.eq_dec (zlen s) 0).
    - destruct s'; [unfold octet, continuation_octet; cbn; lia|zl].
    - destruct (O 0 ltac:(zl)) as (O1 & _ & O3). destruct (Z.eq_dec f 0) as [->|].
      + rewrite O3 by lia. assumption.
      + rewrite O1 by lia. unfold continuation_octet. lia. }
  exact (proj1 (terminates_iff s' U N)).
Qed.
