(** * Proofs: the forward loop over arbitrary NUL-terminated bytes *)
From Verif Require Import Prelude Utf8Model TextModel Utf8Spec Utf8Proofs LawfulProofs.
Require Import ZifyBool ZifyNat.

Lemma rd_octet mem p : 0 <= p < zlen mem -> rd mem p = Ok (octet mem p).
Proof.
  intros H. unfold rd, octet. destruct (Z.ltb_spec p 0); [lia|].
  destruct (nth_lt_some mem (Z.to_nat p) ltac:(zl)) as [v E].
  rewrite E. f_equal. symmetry. apply nth_error_nth. exact E.
Qed.
Lemma octet_byte mem p : Forall is_byte mem -> is_byte (octet mem p).
Proof.
  intros F. unfold octet. destruct (nth_in_or_default (Z.to_nat p) mem 0) as [I| ->].
  - rewrite Forall_forall in F. auto.
  - unfold is_byte. lia.
Qed.
Lemma is_cont_iff b : is_cont b = true <-> continuation_octet b.
Proof. unfold is_cont, continuation_octet. lia. Qed.

Lemma rewind_loop_bytes mem : Forall is_byte mem -> ~ continuation_octet (octet mem 0) ->
  forall n p fuel ret, p = Z.of_nat n -> p < zlen mem -> (n < fuel)%nat ->
  exists r, closest_lead mem p r /\ rewind_loop fuel mem p ret = Ok (ret || (r <? p), r).
Proof.
  intros F H0. induction n as [|n IH]; intros p fuel ret Hp Hm Hf;
    (destruct fuel as [|fuel]; [lia|]); cbn [rewind_loop];
    rewrite rd_octet by lia; cbn [bind];
    rewrite is_continuation_spec by (apply octet_byte; assumption).
  - subst p. change (Z.of_nat 0) with 0 in *. exists 0. split.
    + split; [lia|]. split; [assumption|]. intros k Hk. lia.
    + destruct (is_cont (octet mem 0)) eqn:E; [apply is_cont_iff in E; contradiction|].
      rewrite Z.ltb_irrefl, orb_false_r. reflexivity.
  - destruct (is_cont (octet mem p)) eqn:E.
    + rewrite padd_ok by lia. cbn [bind].
      destruct (IH (p + -1) fuel true ltac:(lia) ltac:(lia) ltac:(lia)) as (r & (Hr & Hn & Hall) & ->).
      exists r. split.
      * split; [lia|]. split; [assumption|]. intros k Hk.
        destruct (Z.eq_dec k p) as [->|]; [apply is_cont_iff; assumption|apply Hall; lia].
      * f_equal. f_equal. lia.
    + exists p. split.
      * split; [lia|]. split; [intros C; apply is_cont_iff in C; congruence|]. intros k Hk. lia.
      * rewrite Z.ltb_irrefl, orb_false_r. reflexivity.
Qed.
Lemma rewind_bytes mem p : Forall is_byte mem -> ~ continuation_octet (octet mem 0) ->
  0 <= p < zlen mem ->
  exists r, closest_lead mem p r /\ rewind_to_start_of_codepoint mem p = Ok (r <? p, r).
Proof.
  intros F H0 Hp. unfold rewind_to_start_of_codepoint.
  destruct (rewind_loop_bytes mem F H0 (Z.to_nat p) p (S (Z.to_nat p)) false) as (r & H1 & H2); try lia.
  exists r. split; [assumption|]. rewrite H2. reflexivity.
Qed.
Lemma closest_lead_unique mem p r r' : closest_lead mem p r -> closest_lead mem p r' -> r = r'.
Proof.
  intros (A & B & C) (A' & B' & C').
  destruct (Z.lt_trichotomy r r') as [L|[E|L]]; [|assumption|].
  - exfalso. apply B'. apply C. lia.
  - exfalso. apply B. apply C'. lia.
Qed.

Lemma eq_loop_bytes n : forall mem p q, 0 <= p <= q -> q <= zlen mem ->
  eq_loop n mem p q = Ok (q <? p + Z.of_nat n).
Proof.
  induction n as [|n IH]; intros mem p q Hp Hq; cbn [eq_loop].
  - f_equal. lia.
  - destruct (Z.eqb_spec p q); [f_equal; lia|].
    rewrite padd_ok by lia. cbn [bind]. rewrite IH by lia. f_equal. lia.
Qed.

Lemma decode_loop_bytes n : forall mem p v k, Forall is_byte mem ->
  0 <= p -> p + Z.of_nat n < zlen mem -> 0 <= v < 2 ^ k -> 0 <= k -> k + 6 * Z.of_nat n <= 31 ->
  exists c, decode_loop n mem p v = Ok c /\ codepoint31 c.
Proof.
  induction n as [|n IH]; intros mem p v k F Hp Hm Hv Hk Hb; cbn [decode_loop].
  - exists v. split; [reflexivity|]. unfold codepoint31.
    assert (2 ^ k <= 2 ^ 31) by (apply Z.pow_le_mono_r; lia). lia.
  - rewrite padd_ok by lia. cbn [bind]. rewrite rd_octet by lia. cbn [bind].
    assert (P : 2 ^ k <= 2 ^ 25) by (apply Z.pow_le_mono_r; lia).
    change (2 ^ 25) with 33554432 in P.
    unfold shl6. destruct (Z.leb_spec 0 v); [|lia].
    destruct (Z.ltb_spec (v * 64) 4294967296); [|lia]. cbn [andb bind].
    assert (E : to_i32 (v * 64) = v * 64).
    { unfold to_i32. rewrite Z.mod_small by lia. destruct (Z.ltb_spec (v * 64) 2147483648); lia. }
    rewrite E, low6_spec by (apply octet_byte; assumption).
    assert (L6 : 0 <= low6 (octet mem (p + 1)) < 64) by (unfold low6; apply Z.mod_pos_bound; lia).
    rewrite lor_low6 by assumption.
    apply (IH mem (p + 1) _ (k + 6)); try lia; try assumption.
    rewrite Z.pow_add_r by lia. change (2 ^ 6) with 64. lia.
Qed.

(** What one iteration of the loop does at any position of a NUL-terminated buffer. *)
Record byte_env (s mem : list Z) : Prop := {
  be_mem : mem = string_buffer s;
  be_bytes : Forall octet_upto_FD s;
  be_first : ~ continuation_octet (octet mem 0)
}.
Lemma be_is_byte s mem : byte_env s mem -> Forall is_byte mem.
Proof.
  intros [-> H _]. unfold string_buffer. apply Forall_app. split.
  - eapply Forall_impl; [|exact H]. unfold octet_upto_FD, is_byte. lia.
  - constructor; [unfold is_byte; lia|constructor].
Qed.
Lemma be_upto s mem p : byte_env s mem -> octet_upto_FD (octet mem p).
Proof.
  intros [-> H _]. unfold string_buffer, octet.
  destruct (nth_in_or_default (Z.to_nat p) (s ++ [0]) 0) as [I| ->].
  - apply in_app_or in I. rewrite Forall_forall in H. destruct I as [I|[<-|[]]]; [auto|].
    unfold octet_upto_FD. lia.
  - unfold octet_upto_FD. lia.
Qed.
Lemma be_len s mem : byte_env s mem -> zlen mem = zlen s + 1.
Proof. intros [-> _ _]. unfold string_buffer. zl. Qed.

Lemma byte_eq s mem p r : byte_env s mem -> 0 <= p <= zlen s -> closest_lead mem p r ->
  it_eq mem p (zlen s) = Ok (zlen s <? r + announced_len (octet mem r)).
Proof.
  intros E Hp Hr. pose proof (be_is_byte _ _ E) as FB. pose proof (be_len _ _ E) as LE.
  destruct (rewind_bytes mem p FB (be_first _ _ E) ltac:(lia)) as (r' & Hr' & Hrw).
  assert (r' = r) by (eapply closest_lead_unique; eassumption). subst r'.
  unfold it_eq. rewrite Hrw. cbn [bind]. destruct Hr as (R1 & _ & _).
  rewrite rd_octet by lia. cbn [bind]. rewrite codepoint_size_spec by (apply octet_byte; assumption).
  cbn [bind]. pose proof (announced_len_range (octet mem r)).
  rewrite eq_loop_bytes by lia. f_equal. lia.
Qed.
Lemma byte_inc s mem p r : byte_env s mem -> 0 <= p <= zlen s -> closest_lead mem p r ->
  r + announced_len (octet mem r) <= zlen s ->
  it_preinc mem p = Ok (r + announced_len (octet mem r)).
Proof.
  intros E Hp Hr Hn. pose proof (be_is_byte _ _ E) as FB. pose proof (be_len _ _ E) as LE.
  destruct (rewind_bytes mem p FB (be_first _ _ E) ltac:(lia)) as (r' & Hr' & Hrw).
  assert (r' = r) by (eapply closest_lead_unique; eassumption). subst r'.
  unfold it_preinc, forward_one_codepoint. rewrite Hrw. cbn [bind]. destruct Hr as (R1 & _ & _).
  rewrite rd_octet by lia. cbn [bind]. rewrite codepoint_size_spec by (apply octet_byte; assumption).
  cbn [bind]. pose proof (announced_len_range (octet mem r)).
  rewrite padd_ok by lia. reflexivity.
Qed.
Lemma mask_range b : is_byte b -> octet_upto_FD b ->
  announced_len b <= 6 /\
  0 <= Z.land (char_int b) (to_u8 (Z.lnot (Z.shiftl 255 (7 - announced_len b)))) < 2 ^ (7 - announced_len b).
Proof.
  intros H U. unfold octet_upto_FD in U.
  assert (E := byte_sweep (fun b => if (b <? 254) then
    (announced_len b <=? 6) &&
    (let v := Z.land (char_int b) (to_u8 (Z.lnot (Z.shiftl 255 (7 - announced_len b)))) in
     (0 <=? v) && (v <? 2 ^ (7 - announced_len b))) else true)
           ltac:(vm_compute; reflexivity) b H).
  cbv beta zeta in E. destruct (Z.ltb_spec b 254) as [D|D]; lia.
Qed.
Lemma byte_deref s mem p r : byte_env s mem -> 0 <= p <= zlen s -> closest_lead mem p r ->
  r + announced_len (octet mem r) <= zlen s ->
  exists c, it_deref mem p = Ok (c, r) /\ codepoint31 c.
Proof.
  intros E Hp Hr Hn. pose proof (be_is_byte _ _ E) as FB. pose proof (be_len _ _ E) as LE.
  destruct (rewind_bytes mem p FB (be_first _ _ E) ltac:(lia)) as (r' & Hr' & Hrw).
  assert (r' = r) by (eapply closest_lead_unique; eassumption). subst r'.
  pose proof (octet_byte mem p FB) as Bp. pose proof (octet_byte mem r FB) as Br.
  pose proof (be_upto _ _ r E) as Ur.
  unfold it_deref, current_codepoint. rewrite rd_octet by lia. cbn [bind].
  rewrite is_7bit_spec by assumption. destruct Hr as (R1 & R2 & R3).
  destruct (Z.ltb_spec (octet mem p) 128) as [S|S].
  - exists (char_int (octet mem p)). unfold char_int, codepoint31, is_byte in *.
    assert (r = p).
    { destruct (Z.eq_dec r p); [assumption|]. specialize (R3 p ltac:(lia)). unfold continuation_octet in R3. lia. }
    subst r. destruct (Z.ltb_spec (octet mem p) 128); [|lia].
    split; [reflexivity|]. lia.
  - rewrite Hrw. cbn [bind].
    replace (if r <? p then rd mem r else Ok (octet mem p)) with (Ok (octet mem r)).
    2: { rewrite rd_octet by lia. destruct (Z.ltb_spec r p); [reflexivity|]. replace p with r by lia. reflexivity. }
    cbn [bind]. rewrite codepoint_size_spec by assumption. cbn [bind].
    pose proof (mask_range (octet mem r) Br Ur) as (MA & MR).
    destruct (Z.ltb_spec (7 - announced_len (octet mem r)) 0); [lia|].
    pose proof (announced_len_range (octet mem r)).
    destruct (decode_loop_bytes (Z.to_nat (announced_len (octet mem r) - 1)) mem r _ (7 - announced_len (octet mem r)) FB
                ltac:(lia) ltac:(lia) MR ltac:(lia) ltac:(lia)) as (c & -> & HC).
    exists c. split; [reflexivity|assumption].
Qed.

(** One iteration of either loop. *)
Lemma byte_step s mem p r f : byte_env s mem -> 0 <= p <= zlen s -> closest_lead mem p r ->
  let q := r + announced_len (octet mem r) in
  (zlen s < q ->
     iterate_codepoints (S f) (utf8_ops mem) p (zlen s) = Ok [] /\
     iterate_codepoints_for (S f) (utf8_ops mem) p (zlen s) = Ok []) /\
  (q <= zlen s -> exists c, codepoint31 c /\
     iterate_codepoints (S f) (utf8_ops mem) p (zlen s)
       = (let* rest := iterate_codepoints f (utf8_ops mem) q (zlen s) in Ok (c :: rest)) /\
     iterate_codepoints_for (S f) (utf8_ops mem) p (zlen s)
       = (let* rest := iterate_codepoints_for f (utf8_ops mem) q (zlen s) in Ok (c :: rest))).
Proof.
  intros E Hp Hr q. pose proof (byte_eq s mem p r E Hp Hr) as EQ. fold q in EQ.
  cbn [iterate_codepoints iterate_codepoints_for]. unfold op_neq, op_step. cbn [op_eq op_postinc op_deref utf8_ops]. unfold it_postinc.
  rewrite EQ. cbn [bind]. split; intros Hq.
  - destruct (Z.ltb_spec (zlen s) q); [|lia]. split; reflexivity.
  - destruct (Z.ltb_spec (zlen s) q); [lia|]. cbn [negb].
    destruct (byte_deref s mem p r E Hp Hr Hq) as (c & DE & HC).
    exists c. split; [assumption|]. rewrite DE.
    rewrite (byte_inc s mem p r E Hp Hr Hq). fold q. cbn [bind]. rewrite ?DE. cbn [bind]. split; [reflexivity|].
    assert (Hrr : closest_lead mem r r).
    { destruct Hr as (R1 & R2 & R3). split; [lia|]. split; [assumption|]. intros k Hk. lia. }
    rewrite (byte_inc s mem r r E) by (try assumption; destruct Hr; lia). reflexivity.
Qed.

Lemma closest_lead_exists s mem p : byte_env s mem -> 0 <= p <= zlen s -> exists r, closest_lead mem p r.
Proof.
  intros E Hp. pose proof (be_len _ _ E).
  destruct (rewind_bytes mem p (be_is_byte _ _ E) (be_first _ _ E) ltac:(lia)) as (r & Hr & _). eauto.
Qed.

(** C07: no undefined behaviour *)
Lemma byte_loop_safe s mem : byte_env s mem -> forall fuel p, 0 <= p <= zlen s ->
  (forall u, iterate_codepoints fuel (utf8_ops mem) p (zlen s) <> UB u) /\
  (forall u, iterate_codepoints_for fuel (utf8_ops mem) p (zlen s) <> UB u).
Proof.
  intros E. induction fuel as [|f IH]; intros p Hp; [split; discriminate|].
  destruct (closest_lead_exists s mem p E Hp) as (r & Hr).
  destruct (byte_step s mem p r f E Hp Hr) as (B1 & B2).
  destruct (Z.ltb_spec (zlen s) (r + announced_len (octet mem r))) as [L|L].
  - destruct (B1 L) as (-> & ->). split; discriminate.
  - destruct (B2 L) as (c & _ & -> & ->).
    pose proof (announced_len_range (octet mem r)).
    destruct (IH (r + announced_len (octet mem r))) as (I1 & I2); [destruct Hr; lia|].
    split; intros u.
    + destruct (iterate_codepoints f _ _ _) eqn:D; cbn; try discriminate. intros X. apply (I1 u0). reflexivity.
    + destruct (iterate_codepoints_for f _ _ _) eqn:D; cbn; try discriminate. intros X. apply (I2 u0). reflexivity.
Qed.

(** A stray position is never left. *)
Lemma byte_loop_stray s mem : byte_env s mem -> forall fuel p, 0 <= p <= zlen s -> stray mem p ->
  iterate_codepoints fuel (utf8_ops mem) p (zlen s) = OutOfFuel /\
  iterate_codepoints_for fuel (utf8_ops mem) p (zlen s) = OutOfFuel.
Proof.
  intros E. induction fuel as [|f IH]; intros p Hp (r & Hr & Hs); [split; reflexivity|].
  destruct (byte_step s mem p r f E Hp Hr) as (_ & B2).
  destruct (B2 ltac:(lia)) as (c & _ & -> & ->).
  pose proof (announced_len_range (octet mem r)).
  destruct (IH (r + announced_len (octet mem r))) as (-> & ->).
  - destruct Hr; lia.
  - exists r. split; [|lia]. destruct Hr as (R1 & R2 & R3). split; [lia|]. split; [assumption|].
    intros k Hk. apply R3. lia.
  - split; reflexivity.
Qed.

(** The loop finishes within one step per remaining octet or never; in the
    latter case it reaches a stray continuation octet. *)
Lemma byte_loop_dichotomy s mem : byte_env s mem -> forall n p, 0 <= p <= zlen s ->
  zlen s - p = Z.of_nat n ->
  (exists cs, (length cs <= n)%nat /\ Forall codepoint31 cs /\ forall fuel, (n < fuel)%nat ->
     iterate_codepoints fuel (utf8_ops mem) p (zlen s) = Ok cs /\
     iterate_codepoints_for fuel (utf8_ops mem) p (zlen s) = Ok cs) \/
  ((exists x, p <= x < zlen s /\ stray mem x) /\
   forall fuel, iterate_codepoints fuel (utf8_ops mem) p (zlen s) = OutOfFuel /\
     iterate_codepoints_for fuel (utf8_ops mem) p (zlen s) = OutOfFuel).
Proof.
  intros E n. induction n as [n IH] using (well_founded_induction lt_wf). intros p Hp Hn.
  destruct (closest_lead_exists s mem p E Hp) as (r & Hr).
  pose proof (byte_step s mem p r) as ST. cbv zeta in ST.
  set (q := r + announced_len (octet mem r)) in *.
  destruct (Z.leb_spec q p) as [Hst|Hst].
  - right.
    assert (SP : stray mem p) by (exists r; split; assumption).
    split.
    + exists p. split; [|assumption]. split; [lia|].
      destruct (Z.eq_dec p (zlen s)) as [->|]; [exfalso|lia].
      pose proof (announced_len_range (octet mem r)).
      destruct Hr as (R1 & R2 & R3). specialize (R3 (zlen s) ltac:(lia)).
      rewrite (be_mem _ _ E) in R3. unfold octet, string_buffer in R3.
      unfold zlen in R3. rewrite Nat2Z.id, app_nth2, Nat.sub_diag in R3 by lia. unfold continuation_octet in R3. cbn in R3. lia.
    + intros fuel. apply byte_loop_stray; assumption.
  - destruct (Z.ltb_spec (zlen s) q) as [L|L].
    + left. exists []. split; [cbn; lia|]. split; [constructor|]. intros fuel Hf.
      destruct fuel as [|f]; [lia|]. apply (ST f E Hp Hr). assumption.
    + destruct (IH (Z.to_nat (zlen s - q)) ltac:(lia) q ltac:(lia) ltac:(lia)) as [(cs & Lc & FC & A)|((x & Hx & Sx) & A)].
      * left. destruct (ST 0%nat E Hp Hr) as (_ & B0). destruct (B0 L) as (c0 & HC0 & _).
        destruct (byte_deref s mem p r E Hp Hr L) as (c & DE & HC).
        exists (c :: cs). split; [cbn [length]; lia|]. split; [constructor; assumption|].
        intros fuel Hf. destruct fuel as [|f]; [lia|]. 
        destruct (A f ltac:(lia)) as (A1 & A2).
        cbn [iterate_codepoints iterate_codepoints_for]. unfold op_neq, op_step. cbn [op_eq op_postinc op_deref utf8_ops]. unfold it_postinc.
        rewrite (byte_eq s mem p r E Hp Hr). fold q. cbn [bind].
        destruct (Z.ltb_spec (zlen s) q); [lia|]. cbn [negb]. rewrite DE.
        rewrite (byte_inc s mem p r E Hp Hr L). fold q. cbn [bind]. rewrite ?DE. cbn [bind]. rewrite A1. split; [reflexivity|].
        assert (Hrr : closest_lead mem r r).
        { destruct Hr as (R1 & R2 & R3). split; [lia|]. split; [assumption|]. intros k Hk. lia. }
        rewrite (byte_inc s mem r r E) by (try assumption; destruct Hr; lia). fold q. cbn [bind].
        rewrite A2. reflexivity.
      * right. split; [exists x; split; [lia|assumption]|].
        intros fuel. destruct fuel as [|f]; [split; reflexivity|].
        destruct (ST f E Hp Hr) as (_ & B). destruct (B L) as (c & _ & -> & ->).
        destruct (A f) as (-> & ->). split; reflexivity.
Qed.

Lemma byte_env_string s : Forall octet_upto_FD s -> ~ continuation_octet (octet (string_buffer s) 0) ->
  byte_env s (string_buffer s).
Proof. intros A B. constructor; [reflexivity|assumption|assumption]. Qed.

Lemma octet_string_first s : ~ continuation_octet (octet s 0) ->
  ~ continuation_octet (octet (string_buffer s) 0).
Proof. destruct s; unfold octet, string_buffer; cbn; intros H; assumption. Qed.

Lemma checked_hang : exists s,
  Forall octet_upto_FD s /\
  bounds_check (string_buffer s) 0 (zlen s) = Ok true /\
  forall fuel,
    iterate_codepoints fuel (utf8_ops (string_buffer s)) 0 (zlen s) = OutOfFuel /\
    iterate_codepoints_for fuel (utf8_ops (string_buffer s)) 0 (zlen s) = OutOfFuel.
Proof.
  exists [0x41; 0x81].
  assert (F : Forall octet_upto_FD [0x41; 0x81]) by (repeat constructor; unfold octet_upto_FD; lia).
  assert (C : ~ continuation_octet (octet (string_buffer [0x41; 0x81]) 0)) by (unfold continuation_octet; vm_compute; intros [H _]; apply H; reflexivity).
  split; [assumption|]. split; [vm_compute; reflexivity|]. intros fuel.
  pose proof (byte_env_string _ F C) as E.
  destruct fuel as [|f]; [split; reflexivity|].
  assert (R0 : closest_lead (string_buffer [0x41; 0x81]) 0 0).
  { split; [lia|]. split; [assumption|]. intros k Hk. lia. }
  destruct (byte_step _ _ 0 0 f E ltac:(cbn; lia) R0) as (_ & B).
  destruct (B ltac:(vm_compute; discriminate)) as (c & _ & -> & ->).
  destruct (byte_loop_stray _ _ E f 1 ltac:(cbn; lia)) as (A1 & A2).
  - exists 0. split; [|vm_compute; discriminate]. split; [lia|]. split; [assumption|].
    intros k Hk. replace k with 1 by lia. unfold continuation_octet. vm_compute. split; [discriminate|reflexivity].
  - change (0 + announced_len (octet (string_buffer [0x41; 0x81]) 0)) with 1.
    rewrite A1, A2. split; reflexivity.
Qed.

Lemma ends_or_never s :
  Forall octet_upto_FD s -> ~ continuation_octet (octet s 0) ->
  (exists cs, (length cs <= length s)%nat /\ Forall codepoint31 cs /\
    forall fuel, (length s < fuel)%nat ->
      iterate_codepoints fuel (utf8_ops (string_buffer s)) 0 (zlen s) = Ok cs /\
      iterate_codepoints_for fuel (utf8_ops (string_buffer s)) 0 (zlen s) = Ok cs) \/
  ((exists p, 0 <= p < zlen s /\ stray (string_buffer s) p) /\
   forall fuel,
      iterate_codepoints fuel (utf8_ops (string_buffer s)) 0 (zlen s) = OutOfFuel /\
      iterate_codepoints_for fuel (utf8_ops (string_buffer s)) 0 (zlen s) = OutOfFuel).
Proof.
  intros F C. pose proof (byte_env_string s F (octet_string_first s C)) as E.
  apply (byte_loop_dichotomy s _ E (length s) 0); zl.
Qed.
Lemma no_stray_terminates s :
  Forall octet_upto_FD s -> ~ continuation_octet (octet s 0) ->
  (forall p, 0 <= p < zlen s -> ~ stray (string_buffer s) p) ->
  exists cs, (length cs <= length s)%nat /\ Forall codepoint31 cs /\
    forall fuel, (length s < fuel)%nat ->
      iterate_codepoints fuel (utf8_ops (string_buffer s)) 0 (zlen s) = Ok cs /\
      iterate_codepoints_for fuel (utf8_ops (string_buffer s)) 0 (zlen s) = Ok cs.
Proof.
  intros F C N. destruct (ends_or_never s F C) as [H|((p & Hp & Sp) & _)]; [assumption|].
  exfalso. exact (N p Hp Sp).
Qed.
Lemma stray_hangs s p fuel :
  Forall octet_upto_FD s -> ~ continuation_octet (octet s 0) ->
  0 <= p < zlen s -> stray (string_buffer s) p ->
  iterate_codepoints fuel (utf8_ops (string_buffer s)) p (zlen s) = OutOfFuel /\
  iterate_codepoints_for fuel (utf8_ops (string_buffer s)) p (zlen s) = OutOfFuel.
Proof.
  intros F C Hp Sp. apply byte_loop_stray; [|lia|assumption].
  apply byte_env_string; [assumption|apply octet_string_first; assumption].
Qed.
Lemma stray_example :
  (forall p, 0 <= p < 4 -> ~ stray (string_buffer [0xE2; 0x82; 0x41; 0xC3]) p) /\
  iterate_codepoints 5 (utf8_ops (string_buffer [0xE2; 0x82; 0x41; 0xC3])) 0 4 = Ok [0x2081] /\
  stray (string_buffer [0x41; 0x42; 0x81]) 2.
Proof.
  split; [|split].
  - intros p Hp (r & (R1 & R2 & R3) & H).
    assert (D : p = 0 \/ p = 1 \/ p = 2 \/ p = 3) by lia.
    assert (D' : r = 0 \/ r = 1 \/ r = 2 \/ r = 3) by lia.
    set (m := string_buffer [0xE2; 0x82; 0x41; 0xC3]) in *.
    assert (V0 : octet m 0 = 0xE2) by reflexivity.
    assert (V1 : octet m 1 = 0x82) by reflexivity.
    assert (V2 : octet m 2 = 0x41) by reflexivity.
    assert (V3 : octet m 3 = 0xC3) by reflexivity.
    assert (W0 : announced_len 0xE2 = 3) by reflexivity.
    assert (W2 : announced_len 0x41 = 1) by reflexivity.
    assert (W3 : announced_len 0xC3 = 2) by reflexivity.
    pose proof (R3 2) as R32. pose proof (R3 3) as R33. unfold continuation_octet in *.
    destruct D as [D|[D|[D|D]]]; subst p; destruct D' as [D'|[D'|[D'|D']]]; subst r; try lia;
      rewrite ?V0, ?V1, ?V2, ?V3, ?W0, ?W2, ?W3 in *; lia.
  - vm_compute. reflexivity.
  - exists 1. split; [|vm_compute; discriminate]. split; [lia|].
    unfold continuation_octet. change (octet (string_buffer [65; 66; 129]) 1) with 66. split; [lia|].
    intros k Hk. replace k with 2 by lia. change (octet (string_buffer [65; 66; 129]) 2) with 129. lia.
Qed.
