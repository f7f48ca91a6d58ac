(** * Proofs: codepoint loops over arbitrary NUL-terminated bytes, values and backwards *)
From Verif Require Import Prelude Utf8Model TextModel Utf8Spec RangeSpec Utf8Proofs LawfulProofs ByteProofs BoundsProofs ExactProofs GraphemeBytes.
Require Import ZifyBool ZifyNat.

Lemma skipn_skip {A} n : forall k (l : list A), skipn n (skipn k l) = skipn (k + n) l.
Proof. induction k as [|k IH]; intros [|x l]; cbn [skipn Nat.add]; try reflexivity; [apply skipn_nil|apply IH]. Qed.
Lemma skipn_octet mem p : 0 <= p < zlen mem -> skipn (Z.to_nat p) mem = octet mem p :: skipn (Z.to_nat (p + 1)) mem.
Proof.
  intros H. replace (Z.to_nat (p + 1)) with (S (Z.to_nat p)) by lia. unfold octet.
  assert (L : (Z.to_nat p < length mem)%nat) by zl. clear H. revert L. generalize (Z.to_nat p). intros n. revert mem.
  induction n as [|n IH]; intros [|x m] L; cbn in L; try lia; [reflexivity|]. cbn [skipn nth]. apply IH. lia.
Qed.
Lemma decode_loop_value n : forall mem p v k, Forall is_byte mem ->
  0 <= p -> p + Z.of_nat n < zlen mem -> 0 <= v < 2 ^ k -> 0 <= k -> k + 6 * Z.of_nat n <= 31 ->
  decode_loop n mem p v = Ok (fold_left (fun v b => v * 64 + b mod 64) (firstn n (skipn (Z.to_nat (p + 1)) mem)) v).
Proof.
  induction n as [|n IH]; intros mem p v k F Hp Hm Hv Hk Hb; cbn [decode_loop]; [reflexivity|].
  rewrite padd_ok by lia. cbn [bind]. rewrite rd_octet by lia. cbn [bind].
  assert (P : 2 ^ k <= 2 ^ 25) by (apply Z.pow_le_mono_r; lia).
  change (2 ^ 25) with 33554432 in P.
  unfold shl6. destruct (Z.leb_spec 0 v); [|lia].
  destruct (Z.ltb_spec (v * 64) 4294967296); [|lia]. cbn [andb bind].
  assert (E : to_i32 (v * 64) = v * 64).
  { unfold to_i32. rewrite Z.mod_small by lia. destruct (Z.ltb_spec (v * 64) 2147483648); lia. }
  rewrite E, low6_spec by (apply octet_byte; assumption).
  assert (L6 : 0 <= low6 (octet mem (p + 1)) < 64) by (unfold low6; apply Z.mod_pos_bound; lia).
  rewrite lor_low6 by assumption.
  rewrite (IH mem (p + 1) _ (k + 6)); try lia; try assumption.
  - rewrite (skipn_octet mem (p + 1)) by lia. reflexivity.
  - rewrite Z.pow_add_r by lia. change (2 ^ 6) with 64. lia.
Qed.
Lemma lead_payload b : is_byte b -> octet_upto_FD b -> 192 <= b ->
  Z.land (char_int b) (to_u8 (Z.lnot (Z.shiftl 255 (7 - announced_len b)))) = b mod 2 ^ (7 - announced_len b).
Proof.
  intros H U G. unfold octet_upto_FD in U.
  assert (E := byte_sweep (fun b => if (b <? 254) && (192 <=? b) then
    Z.land (char_int b) (to_u8 (Z.lnot (Z.shiftl 255 (7 - announced_len b)))) =? b mod 2 ^ (7 - announced_len b) else true)
           ltac:(vm_compute; reflexivity) b H).
  cbv beta zeta in E. destruct (Z.ltb_spec b 254) as [D|D]; [|lia]. destruct (Z.leb_spec 192 b); [|lia]. cbn [andb] in E. lia.
Qed.

(** The positions below [n] that hold no continuation octet, last first. *)
Fixpoint leads (mem : list Z) (n : nat) : list Z :=
  match n with
  | O => []
  | S n' => if is_cont (octet mem (Z.of_nat n')) then leads mem n' else Z.of_nat n' :: leads mem n'
  end.
Lemma leads_in mem n p : In p (leads mem n) <-> 0 <= p < Z.of_nat n /\ ~ continuation_octet (octet mem p).
Proof.
  induction n as [|n IH]; cbn [leads]; [cbn; lia|]. destruct (is_cont (octet mem (Z.of_nat n))) eqn:C.
  - rewrite IH. apply is_cont_iff in C. split; intros (A & B); (split; [|assumption]); try lia.
    destruct (Z.eq_dec p (Z.of_nat n)) as [->|]; [contradiction|lia].
  - cbn [In]. rewrite IH. split.
    + intros [<-|(A & B)]; [|split; [lia|assumption]]. split; [lia|]. intros X. apply is_cont_iff in X. congruence.
    + intros (A & B). destruct (Z.eq_dec (Z.of_nat n) p); [left; assumption|right]. split; [lia|assumption].
Qed.
Lemma leads_sorted mem n : forall i j, (i < j < length (leads mem n))%nat -> nth j (leads mem n) 0 < nth i (leads mem n) 0.
Proof.
  induction n as [|n IH]; cbn [leads]; [cbn; lia|]. destruct (is_cont (octet mem (Z.of_nat n))) eqn:C; [assumption|].
  intros [|i] [|j] L; cbn [length nth] in *; try lia; [|apply IH; lia].
  assert (I : In (nth j (leads mem n) 0) (leads mem n)) by (apply nth_In; lia). apply leads_in in I. lia.
Qed.
Lemma leads_step mem r q : 0 < r -> closest_lead mem (r - 1) q -> leads mem (Z.to_nat r) = q :: leads mem (Z.to_nat q).
Proof.
  intros H (Q1 & Q2 & Q3). remember (Z.to_nat (r - 1 - q)) as d eqn:D. revert r H Q1 Q3 D.
  induction d as [|d IH]; intros r H Q1 Q3 D; replace (Z.to_nat r) with (S (Z.to_nat (r - 1))) by lia; cbn [leads];
    replace (Z.of_nat (Z.to_nat (r - 1))) with (r - 1) by lia.
  - assert (q = r - 1) by lia. subst q. destruct (is_cont (octet mem (r - 1))) eqn:C; [apply is_cont_iff in C; contradiction|]. reflexivity.
  - rewrite (proj2 (is_cont_iff _)) by (apply Q3; lia). apply IH; try lia. intros k K. apply Q3. lia.
Qed.

Section Bytes.
Context (s mem : list Z) (E : byte_env s mem).
Let e := zlen s.
Let ops := utf8_ops mem.

Lemma deref_any p r : 0 <= p <= e -> closest_lead mem p r -> extent mem r <= e + 1 ->
  it_deref mem p = Ok (if (r <? p) && (octet mem r <? 128) then octet mem r mod 64 else value_at mem r, r).
Proof.
  intros Hp Hr Hn. pose proof (be_is_byte _ _ E) as FB. pose proof (be_len _ _ E) as LE. unfold e, extent in *.
  destruct (rewind_bytes mem p FB (be_first _ _ E) ltac:(lia)) as (r' & Hr' & Hrw).
  assert (r' = r) by (eapply closest_lead_unique; eassumption). subst r'.
  pose proof (octet_byte mem p FB) as Bp. pose proof (octet_byte mem r FB) as Br.
  pose proof (be_upto _ _ r E) as Ur. pose proof (announced_len_range (octet mem r)) as AR.
  unfold it_deref, current_codepoint. rewrite rd_octet by lia. cbn [bind].
  rewrite is_7bit_spec by assumption. destruct Hr as (R1 & R2 & R3).
  unfold value_at, octets_at. rewrite skipn_octet by lia.
  replace (Z.to_nat (announced_len (octet mem r))) with (S (Z.to_nat (announced_len (octet mem r) - 1))) by lia.
  cbn [firstn sequence_value].
  destruct (Z.ltb_spec (octet mem p) 128) as [S|S].
  - assert (r = p).
    { destruct (Z.eq_dec r p); [assumption|]. specialize (R3 p ltac:(lia)). unfold continuation_octet in R3. lia. }
    subst r. unfold char_int. rewrite Z.ltb_irrefl. cbn [andb]. destruct (Z.ltb_spec (octet mem p) 128); [|lia].
    unfold announced_len. destruct (Z.ltb_spec (octet mem p) 192); [|lia]. reflexivity.
  - rewrite Hrw. cbn [bind].
    replace (if r <? p then rd mem r else Ok (octet mem p)) with (Ok (octet mem r)).
    2: { rewrite rd_octet by lia. destruct (Z.ltb_spec r p); [reflexivity|]. replace p with r by lia. reflexivity. }
    cbn [bind]. rewrite codepoint_size_spec by assumption. cbn [bind].
    pose proof (mask_range (octet mem r) Br Ur) as (MA & MR).
    destruct (Z.ltb_spec (7 - announced_len (octet mem r)) 0); [lia|].
    rewrite (decode_loop_value _ mem r _ (7 - announced_len (octet mem r)) FB); try lia. cbn [bind].
    do 2 f_equal. destruct (Z.ltb_spec (octet mem r) 128) as [A|A].
    + assert (A1 : announced_len (octet mem r) = 1) by (unfold announced_len; destruct (Z.ltb_spec (octet mem r) 192); lia).
      rewrite A1. assert (SW := byte_sweep (fun b => if b <? 128 then Z.land (char_int b) (to_u8 (Z.lnot (Z.shiftl 255 (7 - 1)))) =? b mod 64 else true)
         ltac:(vm_compute; reflexivity) (octet mem r) Br). cbv beta in SW. destruct (Z.ltb_spec (octet mem r) 128); [|lia].
      destruct (Z.ltb_spec r p); [|exfalso; assert (p = r) by lia; subst p; clear SW; lia]. cbn [andb]. apply Z.eqb_eq in SW. exact SW.
    + rewrite andb_false_r. f_equal. apply lead_payload; try assumption. unfold continuation_octet in R2. lia.
Qed.
Lemma deref_off p r : 0 <= p <= e -> closest_lead mem p r -> e + 1 < extent mem r -> it_deref mem p = UB OobRead.
Proof.
  intros Hp Hr Hn. pose proof (be_is_byte _ _ E) as FB. pose proof (be_len _ _ E) as LE. unfold e, extent in *.
  destruct (rewind_bytes mem p FB (be_first _ _ E) ltac:(lia)) as (r' & Hr' & Hrw).
  assert (r' = r) by (eapply closest_lead_unique; eassumption). subst r'.
  pose proof (octet_byte mem r FB) as Br. pose proof (octet_byte mem p FB) as Bp. pose proof (be_upto _ _ r E) as Ur.
  destruct Hr as (R1 & R2 & R3).
  unfold it_deref, current_codepoint. rewrite rd_octet by lia. cbn [bind].
  rewrite is_7bit_spec by assumption.
  destruct (Z.ltb_spec (octet mem p) 128) as [S|S].
  - exfalso. assert (r = p).
    { destruct (Z.eq_dec r p); [assumption|]. specialize (R3 p ltac:(lia)). unfold continuation_octet in R3. lia. }
    subst r. unfold announced_len in Hn. destruct (Z.ltb_spec (octet mem p) 192); lia.
  - rewrite Hrw. cbn [bind].
    replace (if r <? p then rd mem r else Ok (octet mem p)) with (Ok (octet mem r)).
    2: { rewrite rd_octet by lia. destruct (Z.ltb_spec r p); [reflexivity|]. replace p with r by lia. reflexivity. }
    cbn [bind]. rewrite codepoint_size_spec by assumption. cbn [bind].
    pose proof (mask_range (octet mem r) Br Ur) as (MA & MR).
    destruct (Z.ltb_spec (7 - announced_len (octet mem r)) 0); [lia|].
    pose proof (announced_len_range (octet mem r)).
    rewrite (decode_loop_oob s mem E _ r _ (7 - announced_len (octet mem r))); [reflexivity|lia|lia|exact MR|lia|lia].
Qed.
Lemma inc_any p r : 0 <= p <= e -> closest_lead mem p r ->
  it_preinc mem p = if extent mem r <=? e + 1 then Ok (extent mem r) else UB BadPointer.
Proof.
  intros Hp Hr. pose proof (be_is_byte _ _ E) as FB. pose proof (be_len _ _ E) as LE. unfold e, extent in *.
  destruct (rewind_bytes mem p FB (be_first _ _ E) ltac:(lia)) as (r' & Hr' & Hrw).
  assert (r' = r) by (eapply closest_lead_unique; eassumption). subst r'.
  pose proof (octet_byte mem r FB) as Br. destruct Hr as (R1 & R2 & R3). pose proof (announced_len_range (octet mem r)).
  unfold it_preinc, forward_one_codepoint. rewrite Hrw. cbn [bind]. rewrite rd_octet by lia. cbn [bind].
  rewrite codepoint_size_spec by assumption. cbn [bind]. unfold padd. rewrite LE.
  destruct (Z.leb_spec (r + announced_len (octet mem r)) (zlen s + 1)), (Z.leb_spec 0 (r + announced_len (octet mem r))); try lia; reflexivity.
Qed.
Lemma deref_value r : 0 <= r <= e -> ~ continuation_octet (octet mem r) -> extent mem r <= e + 1 ->
  it_deref mem r = Ok (value_at mem r, r).
Proof.
  intros Hr C Hn. rewrite (deref_any r r) by (first [assumption | split; [lia|split; [assumption|intros; lia]]]).
  rewrite Z.ltb_irrefl. reflexivity.
Qed.
Lemma dec_bytes p r q : 0 <= p <= e -> closest_lead mem p r -> 0 < r -> closest_lead mem (r - 1) q ->
  it_predec mem p = Ok q.
Proof.
  intros Hp Hr H0 Hq. pose proof (be_is_byte _ _ E) as FB. pose proof (be_len _ _ E) as LE. unfold e in *.
  destruct (rewind_bytes mem p FB (be_first _ _ E) ltac:(lia)) as (r' & Hr' & Hrw).
  assert (r' = r) by (eapply closest_lead_unique; eassumption). subst r'.
  unfold it_predec, rewind_one_codepoint. rewrite Hrw. cbn [bind]. destruct Hr as (R1 & _).
  rewrite padd_ok by lia. cbn [bind].
  destruct (rewind_bytes mem (r + -1) FB (be_first _ _ E) ltac:(lia)) as (q' & Hq' & ->).
  replace (r + -1) with (r - 1) in Hq' by lia. assert (q' = q) by (eapply closest_lead_unique; eassumption). subst q'. reflexivity.
Qed.
Lemma dec_begin p : 0 <= p <= e -> closest_lead mem p 0 -> it_predec mem p = UB BadPointer.
Proof.
  intros Hp Hr. pose proof (be_is_byte _ _ E) as FB. pose proof (be_len _ _ E) as LE. unfold e in *.
  destruct (rewind_bytes mem p FB (be_first _ _ E) ltac:(lia)) as (r' & Hr' & Hrw).
  assert (r' = 0) by (eapply closest_lead_unique; eassumption). subst r'.
  unfold it_predec, rewind_one_codepoint. rewrite Hrw. cbn [bind]. reflexivity.
Qed.

(** The backward loop from a lead octet (or the end) whose announced octets can be read. *)
Lemma lead_self r : 0 <= r -> ~ continuation_octet (octet mem r) -> closest_lead mem r r.
Proof. intros H C. split; [lia|]. split; [assumption|]. intros k Hk. lia. Qed.
Lemma back_loop n : forall r fuel, 0 <= r <= e -> (Z.to_nat r < n)%nat -> (Z.to_nat r < fuel)%nat ->
  ~ continuation_octet (octet mem r) -> extent mem r <= e + 1 ->
  let rs := leads mem (Z.to_nat r) in
  ((forall p, In p rs -> extent mem p <= e + 1) -> iterate_backwards fuel ops r 0 = Ok (map (value_at mem) rs)) /\
  ((exists p, In p rs /\ e + 1 < extent mem p) -> iterate_backwards fuel ops r 0 = UB OobRead).
Proof.
  induction n as [|n IH]; intros r fuel Hr Hn Hf C X rs; [lia|]. destruct fuel as [|f]; [lia|].
  cbn [iterate_backwards]. unfold op_neq. unfold ops. cbn [op_eq op_dec op_deref utf8_ops].
  unfold extent in X.
  rewrite (byte_eq_any s mem r 0 r E) by (try (unfold e in *; lia); apply lead_self; (lia || assumption)).
  destruct (Z.ltb_spec 0 r) as [H0|H0].
  - destruct (Z.leb_spec (r + announced_len (octet mem r)) (zlen s + 1)); [|unfold e in *; lia]. cbn [bind negb].
    destruct (closest_lead_exists s mem (r - 1) E) as (q & Hq); [unfold e in *; lia|].
    rewrite (dec_bytes r r q) by (try assumption; apply lead_self; (lia || assumption)). cbn [bind].
    unfold rs. rewrite (leads_step mem r q H0 Hq). pose proof Hq as (Q1 & Q2 & Q3).
    destruct (Z.leb_spec (extent mem q) (e + 1)) as [L|L].
    + rewrite (deref_value q) by (try assumption; lia). cbn [bind].
      destruct (IH q f ltac:(lia) ltac:(lia) ltac:(lia) Q2 L) as (I3 & I4).
      fold ops. split.
      * intros A. rewrite I3 by (intros p P; apply A; right; assumption). reflexivity.
      * intros (p & [<-|P] & PE); [lia|]. rewrite I4 by (exists p; split; assumption). reflexivity.
    + rewrite (deref_beyond s mem E q) by (try assumption; unfold e, extent, extent_end in *; lia). cbn [bind].
      split; [|reflexivity]. intros A. specialize (A q ltac:(left; reflexivity)). lia.
  - assert (r = 0) by lia. subst r. pose proof (announced_len_range (octet mem 0)).
    destruct (Z.ltb_spec 0 (0 + announced_len (octet mem 0))); [|lia]. cbn [bind negb map]. split; [reflexivity|].
    intros (p & [] & _).
Qed.

(** The forward loops. *)
Lemma walk_range p rs : forward_walk mem e p rs -> 0 <= p.
Proof. intros W. destruct W as [p r H|p r rs H]; destruct H; lia. Qed.
Lemma forward_result p rs : 0 <= p <= e -> (forall x, visited mem e x -> ~ stray mem x) -> visited mem e p ->
  forward_walk mem e p rs -> forall fuel, (length rs < fuel)%nat ->
  iterate_codepoints fuel ops p e = Ok (map (value_at mem) rs) /\
  iterate_codepoints_for fuel ops p e = Ok (map (value_at mem) rs).
Proof.
  intros Hp NS V W. induction W as [p r H L|p r rs H L W IH]; intros fuel Hf; (destruct fuel as [|f]; [cbn in Hf; lia|]);
    destruct (byte_step s mem p r f E Hp H) as (B1 & B2); unfold extent in L.
  - destruct (B1 L) as (A1 & A2). split; assumption.
  - cbn [length map] in *. pose proof H as (R1 & R2 & R3).
    assert (NP : ~ stray mem p) by (apply NS; assumption).
    assert (NE : (r <? p) && (octet mem r <? 128) = false).
    { destruct (Z.ltb_spec r p); [|reflexivity]. destruct (Z.ltb_spec (octet mem r) 128) as [Q|]; [|reflexivity]. exfalso. apply NP.
      exists r. split; [assumption|]. unfold announced_len. destruct (Z.ltb_spec (octet mem r) 192); lia. }
    destruct (IH) with (fuel := f) as (I1 & I2); try lia.
    { pose proof (announced_len_range (octet mem r)). unfold extent. unfold e in *. lia. }
    { apply (visited_next mem e p r); assumption. }
    cbn [iterate_codepoints iterate_codepoints_for]. unfold op_neq, op_step, ops. cbn [op_eq op_postinc op_deref utf8_ops]. unfold it_postinc.
    unfold e in *. rewrite (byte_eq s mem p r E Hp H). cbn [bind]. destruct (Z.ltb_spec (zlen s) (r + announced_len (octet mem r))); [lia|]. cbn [negb].
    rewrite (deref_any p r) by (try assumption; unfold e, extent; lia). rewrite NE.
    rewrite (byte_inc s mem p r E Hp H) by assumption. cbn [bind].
    rewrite (byte_inc s mem r r E) by (try assumption; try lia; apply lead_self; (lia || assumption)). cbn [bind].
    unfold extent, ops in I1, I2. rewrite (deref_any p r) by (try assumption; unfold e, extent; lia). rewrite NE. cbn [bind].
    rewrite I1, I2. split; reflexivity.
Qed.
Lemma walk_exists : forall n p, 0 <= p <= e -> (Z.to_nat (e - p) < n)%nat ->
  (forall x, visited mem e x -> ~ stray mem x) -> visited mem e p ->
  exists rs, forward_walk mem e p rs /\ (length rs <= Z.to_nat (e - p))%nat.
Proof.
  induction n as [|n IH]; intros p Hp Hn NS V; [lia|].
  destruct (closest_lead_exists s mem p E Hp) as (r & H).
  destruct (Z.ltb_spec e (extent mem r)) as [L|L]; [exists []; split; [econstructor; eassumption|cbn; lia]|].
  assert (G : p < extent mem r).
  { destruct (Z.ltb_spec p (extent mem r)); [assumption|]. exfalso. apply (NS p V). exists r. split; assumption. }
  destruct (IH (extent mem r)) as (rs & W & LL); try lia; try assumption.
  { apply (visited_next mem e p r); assumption. }
  exists (r :: rs). split; [econstructor; eassumption|]. cbn [length]. lia.
Qed.
End Bytes.

(** ** More fuel does not change a result. *)
Lemma iterate_more mem e f : forall p cs,
  (iterate_codepoints f (utf8_ops mem) p e = Ok cs -> iterate_codepoints (S f) (utf8_ops mem) p e = Ok cs) /\
  (iterate_codepoints_for f (utf8_ops mem) p e = Ok cs -> iterate_codepoints_for (S f) (utf8_ops mem) p e = Ok cs).
Proof.
  induction f as [|f IH]; intros p l; [split; discriminate|]. split; intros H.
  - change (iterate_codepoints (S (S f)) (utf8_ops mem) p e) with
      (let* ne := op_neq (utf8_ops mem) p e in if ne : bool then
         let* '(copy, it) := op_postinc (utf8_ops mem) p in let* '(c, _) := op_deref (utf8_ops mem) copy in
         let* rest := iterate_codepoints (S f) (utf8_ops mem) it e in Ok (c :: rest) else Ok []).
    cbn [iterate_codepoints] in H. destruct (op_neq (utf8_ops mem) p e) as [[|]|u|]; cbn [bind] in *; try discriminate; [|assumption].
    destruct (op_postinc (utf8_ops mem) p) as [[copy it]|u|]; cbn [bind] in *; try discriminate.
    destruct (op_deref (utf8_ops mem) copy) as [[c it']|u|]; cbn [bind] in *; try discriminate.
    destruct (iterate_codepoints f (utf8_ops mem) it e) as [l'|u|] eqn:D; cbn [bind] in *; try discriminate.
    rewrite (proj1 (IH it l') D). exact H.
  - change (iterate_codepoints_for (S (S f)) (utf8_ops mem) p e) with
      (let* ne := op_neq (utf8_ops mem) p e in if ne : bool then
         let* '(c, it) := op_deref (utf8_ops mem) p in let* it := op_step (utf8_ops mem) it in
         let* rest := iterate_codepoints_for (S f) (utf8_ops mem) it e in Ok (c :: rest) else Ok []).
    cbn [iterate_codepoints_for] in H. destruct (op_neq (utf8_ops mem) p e) as [[|]|u|]; cbn [bind] in *; try discriminate; [|assumption].
    destruct (op_deref (utf8_ops mem) p) as [[c it']|u|]; cbn [bind] in *; try discriminate.
    destruct (op_step (utf8_ops mem) it') as [it|u|]; cbn [bind] in *; try discriminate.
    destruct (iterate_codepoints_for f (utf8_ops mem) it e) as [l'|u|] eqn:D; cbn [bind] in *; try discriminate.
    rewrite (proj2 (IH it l') D). exact H.
Qed.

(** ** Statements about strings *)
Section Strings.
Context (s : list Z) (F : Forall octet_upto_FD s) (N : ~ continuation_octet (octet s 0)).
Let mem := string_buffer s.
Lemma str_env : byte_env s mem. Proof. apply byte_env_string; [assumption|apply octet_string_first; assumption]. Qed.

Lemma forward_values :
  (forall fuel cs, iterate_codepoints fuel (utf8_ops mem) 0 (zlen s) = Ok cs \/ iterate_codepoints_for fuel (utf8_ops mem) 0 (zlen s) = Ok cs ->
     exists rs, forward_walk mem (zlen s) 0 rs /\ cs = map (value_at mem) rs) /\
  (forall rs fuel, (forall p, visited mem (zlen s) p -> ~ stray mem p) -> forward_walk mem (zlen s) 0 rs -> (length rs < fuel)%nat ->
     iterate_codepoints fuel (utf8_ops mem) 0 (zlen s) = Ok (map (value_at mem) rs) /\
     iterate_codepoints_for fuel (utf8_ops mem) 0 (zlen s) = Ok (map (value_at mem) rs)).
Proof.
  pose proof str_env as E. destruct (terminates_iff s F N) as [T1 T2]. fold mem in T1, T2. split.
  - intros fuel cs R.
    assert (NS : forall p, visited mem (zlen s) p -> ~ stray mem p) by (destruct R as [R|R]; [apply T1|apply T2]; eauto).
    destruct (walk_exists s mem E (S (Z.to_nat (zlen s))) 0 ltac:(zl) ltac:(zl) NS (visited_begin _ _)) as (rs & W & L).
    exists rs. split; [assumption|].
    destruct (byte_loop_dichotomy s mem E (length s) 0 ltac:(zl) ltac:(zl)) as [(cs' & _ & _ & A)|(_ & A)].
    2: { destruct (A fuel) as [A1 A2]. destruct R; congruence. }
    (* enough fuel gives the same result *)
    assert (CS : cs = cs').
    { assert (MONO := iterate_more mem (zlen s)).
      assert (M2 : forall d, (iterate_codepoints fuel (utf8_ops mem) 0 (zlen s) = Ok cs -> iterate_codepoints (d + fuel) (utf8_ops mem) 0 (zlen s) = Ok cs) /\
          (iterate_codepoints_for fuel (utf8_ops mem) 0 (zlen s) = Ok cs -> iterate_codepoints_for (d + fuel) (utf8_ops mem) 0 (zlen s) = Ok cs)).
      { induction d as [|d [I1 I2]]; [split; auto|]. split; intros X; [apply I1 in X|apply I2 in X]; apply MONO in X; exact X. }
      destruct (A (S (length s) + fuel)%nat ltac:(lia)) as [A1 A2]. destruct (M2 (S (length s))) as [M3 M4].
      destruct R as [R|R]; [apply M3 in R|apply M4 in R]; congruence. }
    subst cs'. destruct (forward_result s mem E 0 rs ltac:(zl) NS (visited_begin _ _) W (S (length rs) + S (length s))%nat ltac:(lia)) as [B1 _].
    destruct (A (S (length rs) + S (length s))%nat ltac:(lia)) as [A1 _]. congruence.
  - intros rs fuel NS W L. apply (forward_result s mem E 0 rs); try assumption; [zl|constructor].
Qed.

Lemma backward_result : exists rs, leads_backwards s rs /\ forall fuel, (length s < fuel)%nat ->
  ((forall p, 0 <= p < zlen s -> p + announced_len (octet s p) <= zlen s + 1) ->
     iterate_backwards fuel (utf8_ops mem) (zlen s) 0 = Ok (map (value_at mem) rs)) /\
  ((exists p, 0 <= p < zlen s /\ zlen s + 1 < p + announced_len (octet s p)) ->
     iterate_backwards fuel (utf8_ops mem) (zlen s) 0 = UB OobRead).
Proof.
  pose proof str_env as E. assert (OB : forall k, octet mem k = octet s k) by (intros; apply octet_buffer).
  exists (leads mem (length s)). split.
  - split; [|apply leads_sorted]. intros p. rewrite leads_in, OB. reflexivity.
  - intros fuel L.
    destruct (back_loop s mem E (S (length s)) (zlen s) fuel) as (A & B); try zl.
    + rewrite OB, octet_end. unfold continuation_octet. lia.
    + unfold extent. rewrite OB, octet_end. change (announced_len 0) with 1. lia.
    + replace (Z.to_nat (zlen s)) with (length s) in * by zl. split.
      * intros H. apply A. intros p P. apply leads_in in P. unfold extent. rewrite OB. apply H. zl.
      * intros (p & P & Q). apply B. exists p. split; [|unfold extent; rewrite OB; lia]. apply leads_in. split; [zl|].
        rewrite OB. intros C. unfold continuation_octet in C. unfold announced_len in Q. destruct (Z.ltb_spec (octet s p) 192); lia.
Qed.

Lemma operations_safe :
  ((forall p, 0 <= p < zlen s -> ~ cut_short s p) <->
   (forall p, 0 <= p < zlen s -> exists q, it_preinc mem p = Ok q /\ q <= zlen s)) /\
  ((forall p, 0 <= p < zlen s -> ~ cut_short s p) ->
   forall p, 0 <= p < zlen s ->
     (exists c r, it_deref mem p = Ok (c, r) /\ codepoint31 c /\ closest_lead mem p r) /\
     (forall q, 0 <= q <= zlen s -> exists t, it_eq mem p q = Ok t) /\
     (forall r, closest_lead mem p r -> 0 < r -> exists q, it_predec mem p = Ok q /\ 0 <= q < p)).
Proof.
  pose proof str_env as E. assert (OB : forall k, octet mem k = octet s k) by (intros; apply octet_buffer).
  assert (EXT : (forall p, 0 <= p < zlen s -> ~ cut_short s p) -> forall p r, 0 <= p < zlen s -> closest_lead mem p r ->
     0 <= r < zlen s /\ r + announced_len (octet mem r) <= zlen s).
  { intros H p r P C. destruct C as (C1 & C2 & C3). split; [lia|]. rewrite OB in *.
    destruct (Z.leb_spec 192 (octet s r)) as [G|G].
    - destruct (Z.leb_spec (r + announced_len (octet s r)) (zlen s)); [assumption|]. exfalso. apply (H r ltac:(lia)). split; [assumption|zl].
    - unfold announced_len. destruct (Z.ltb_spec (octet s r) 192); lia. }
  split; [split|].
  - intros H p P. destruct (closest_lead_exists s mem p E ltac:(lia)) as (r & C). destruct (EXT H p r P C) as [X1 X2].
    exists (r + announced_len (octet mem r)). split; [|assumption]. apply (byte_inc s mem p r E); (lia || assumption).
  - intros H p P [C1 C2]. destruct (H p P) as (q & Q1 & Q2).
    assert (C : closest_lead mem p p).
    { split; [lia|]. split; [rewrite OB; unfold continuation_octet; lia|]. intros k K. lia. }
    pose proof (be_is_byte _ _ E) as FB. pose proof (be_len _ _ E) as LE.
    destruct (rewind_bytes mem p FB (be_first _ _ E) ltac:(lia)) as (r' & Hr' & Hrw).
    assert (r' = p) by (eapply closest_lead_unique; eassumption). subst r'.
    unfold it_preinc, forward_one_codepoint in Q1. rewrite Hrw in Q1. cbn [bind] in Q1. rewrite rd_octet in Q1 by lia. cbn [bind] in Q1.
    rewrite codepoint_size_spec in Q1 by (apply octet_byte; assumption). cbn [bind] in Q1. unfold padd in Q1. destruct (_ && _) in Q1; [|discriminate].
    injection Q1 as <-. rewrite OB in Q2. zl.
  - intros H p P. destruct (closest_lead_exists s mem p E ltac:(lia)) as (r & C). destruct (EXT H p r P C) as [X1 X2]. split; [|split].
    + destruct (byte_deref s mem p r E ltac:(lia) C X2) as (c & D & HC). exists c, r. split; [assumption|]. split; assumption.
    + intros q Q. rewrite (byte_eq_any s mem p q r E) by (lia || assumption). destruct (q <? r); [|eauto].
      destruct (Z.leb_spec (r + announced_len (octet mem r)) (zlen s + 1)); [eauto|lia].
    + intros r' C' R0. assert (r' = r) by (eapply closest_lead_unique; eassumption). subst r'.
      destruct (closest_lead_exists s mem (r - 1) E ltac:(lia)) as (q & Q).
      exists q. split; [apply (dec_bytes s mem E p r q); (lia || assumption)|]. destruct Q, C; lia.
Qed.

Lemma operations_exact p r : 0 <= p <= zlen s -> closest_lead mem p r ->
  it_deref mem p = (if extent mem r <=? zlen s + 1
    then Ok (if (r <? p) && (octet s r <? 128) then octet s r mod 64 else value_at mem r, r) else UB OobRead) /\
  it_preinc mem p = (if extent mem r <=? zlen s + 1 then Ok (extent mem r) else UB BadPointer) /\
  (r = 0 -> it_predec mem p = UB BadPointer) /\
  (forall q, 0 < r -> closest_lead mem (r - 1) q -> it_predec mem p = Ok q) /\
  utf8_native_const_iterator mem p = Ok r.
Proof.
  intros P C. pose proof str_env as E. pose proof (be_is_byte _ _ E) as FB. pose proof (be_len _ _ E) as LE.
  split; [|split; [|split; [|split]]].
  - replace (octet s r) with (octet mem r) by apply octet_buffer. destruct (Z.leb_spec (extent mem r) (zlen s + 1)).
    + apply (deref_any s mem E); assumption.
    + apply (deref_off s mem E p r); assumption.
  - apply (inc_any s mem E); assumption.
  - intros ->. apply (dec_begin s mem E); assumption.
  - intros q R Q. apply (dec_bytes s mem E p r q); assumption.
  - destruct (rewind_bytes mem p FB (be_first _ _ E) ltac:(lia)) as (r' & Hr' & Hrw).
    assert (r' = r) by (eapply closest_lead_unique; eassumption). subst r'. unfold utf8_native_const_iterator. rewrite Hrw. reflexivity.
Qed.
Lemma append_octets out p q rp rq : 0 <= p <= zlen s -> 0 <= q <= zlen s -> closest_lead mem p rp -> closest_lead mem q rq ->
  (rp <= rq -> exists a m z, s = a ++ m ++ z /\ zlen a = rp /\ zlen a + zlen m = rq /\ utf8_append out mem p q = Ok (out ++ m)) /\
  (rq < rp -> utf8_append out mem p q = UB OobRead).
Proof.
  intros P Q CP CQ. pose proof str_env as E. pose proof (be_is_byte _ _ E) as FB. pose proof (be_len _ _ E) as LE.
  destruct (rewind_bytes mem p FB (be_first _ _ E) ltac:(lia)) as (r & Hr & Hrw). assert (r = rp) by (eapply closest_lead_unique; eassumption). subst r.
  destruct (rewind_bytes mem q FB (be_first _ _ E) ltac:(lia)) as (r & Hr' & Hrw'). assert (r = rq) by (eapply closest_lead_unique; eassumption). subst r.
  unfold utf8_append, utf8_native_const_iterator. rewrite Hrw, Hrw'. cbn [bind]. destruct CP as (P1 & _), CQ as (Q1 & _). split; intros H.
  - exists (firstn (Z.to_nat rp) s), (slice s rp rq), (skipn (Z.to_nat rq) s).
    assert (SL : s = firstn (Z.to_nat rp) s ++ slice s rp rq ++ skipn (Z.to_nat rq) s).
    { rewrite <- (firstn_skipn (Z.to_nat rp) s) at 1. f_equal. unfold slice.
      rewrite <- (firstn_skipn (Z.to_nat (rq - rp)) (skipn (Z.to_nat rp) s)) at 1. f_equal. rewrite skipn_skip. f_equal. lia. }
    split; [assumption|].
    assert (LA : zlen (firstn (Z.to_nat rp) s) = rp) by (unfold zlen in *; rewrite firstn_length; lia).
    assert (LM : zlen (slice s rp rq) = rq - rp) by (unfold slice, zlen in *; rewrite firstn_length, skipn_length; lia).
    split; [assumption|]. split; [lia|]. unfold copy_range. destruct (Z.leb_spec 0 rp), (Z.leb_spec rp rq), (Z.leb_spec rq (zlen mem)); try lia. cbn [andb bind].
    do 2 f_equal. unfold slice. unfold mem, string_buffer. rewrite skipn_app, firstn_app, skipn_length.
    replace (Z.to_nat (rq - rp) - (length s - Z.to_nat rp))%nat with 0%nat by zl. rewrite firstn_O, app_nil_r. reflexivity.
  - unfold copy_range. destruct (Z.leb_spec rp rq); [lia|]. rewrite andb_false_r. reflexivity.
Qed.
End Strings.
Lemma NoDup_positions rs : forall n, (forall i j, (i < j < length rs)%nat -> nth j rs 0 < nth i rs 0) ->
  (forall p, In p rs -> 0 <= p < n) -> 0 <= n -> (length rs <= Z.to_nat n)%nat.
Proof.
  induction rs as [|r rs IH]; intros n S B Hn; cbn [length]; [lia|].
  assert (R : 0 <= r < n) by (apply B; left; reflexivity).
  assert (length rs <= Z.to_nat r)%nat; [|lia]. apply IH; [|intros p P|lia].
  - intros i j H. apply (S (Datatypes.S i) (Datatypes.S j)). cbn [length]. lia.
  - split; [apply B; right; assumption|]. destruct (In_nth rs p 0 P) as (j & J1 & J2).
    specialize (S 0%nat (Datatypes.S j)). cbn [length nth] in S. rewrite J2 in S. lia.
Qed.
Lemma checked_backward s : Forall octet_upto_FD s -> 6 <= zlen s ->
  bounds_check (string_buffer s) 0 (zlen s) = Ok true ->
  exists cs, Forall codepoint31 cs /\ (length cs <= length s)%nat /\
    forall fuel, (length s < fuel)%nat -> iterate_backwards fuel (utf8_ops (string_buffer s)) (zlen s) 0 = Ok cs.
Proof.
  intros F L C. apply (proj1 (check_sound_long s F L)) in C. destruct C as [N H].
  destruct (backward_result s F N) as (rs & (B1 & B2) & A). exists (map (value_at (string_buffer s)) rs).
  assert (EXT : forall p, 0 <= p < zlen s -> p + announced_len (octet s p) <= zlen s).
  { intros p P. destruct (Z.ltb_spec (zlen s) (p + announced_len (octet s p))) as [G|]; [|assumption]. exfalso. apply (H p P). split; [|zl].
    destruct (Z.leb_spec 192 (octet s p)); [assumption|]. unfold announced_len in G. destruct (Z.ltb_spec (octet s p) 192); lia. }
  split; [|split].
  - rewrite Forall_map. apply Forall_forall. intros p P. apply B1 in P. destruct P as [P NC].
    destruct (operations_safe s F N) as [_ S]. destruct (S H p P) as ((c & r & D & HC & CL) & _).
    assert (r = p).
    { eapply closest_lead_unique; [exact CL|]. apply (lead_self (string_buffer s)); [exact (proj1 P)|]. rewrite octet_buffer. assumption. }
    subst r. destruct (operations_exact s F N p p ltac:(zl) CL) as (D' & _). rewrite Z.ltb_irrefl in D'. cbn [andb] in D'.
    unfold extent in D'. rewrite octet_buffer in D'. specialize (EXT p P).
    destruct (Z.leb_spec (p + announced_len (octet s p)) (zlen s + 1)); [|lia]. rewrite D in D'. injection D' as <-. assumption.
  - rewrite map_length. replace (length s) with (Z.to_nat (zlen s)) by zl. apply (NoDup_positions rs (zlen s)); [|intros p P; apply B1 in P; zl|zl]. exact B2.
  - intros fuel Hf. apply (A fuel Hf). intros p P. specialize (EXT p P). lia.
Qed.
Lemma truncate_octets s n : Forall octet_upto_FD s -> ~ continuation_octet (octet s 0) -> 0 <= n <= zlen s ->
  exists m z, s = m ++ z /\ zlen m <= n /\ ~ continuation_octet (octet s (zlen m)) /\
    (forall k, zlen m < k <= n -> continuation_octet (octet s k)) /\
    utf8_append [] (string_buffer s) 0 n = Ok m.
Proof.
  intros F N H. pose proof (str_env s F N) as E.
  destruct (closest_lead_exists s _ n E H) as (r & C).
  assert (C0 : closest_lead (string_buffer s) 0 0) by (apply (lead_self (string_buffer s)); [lia|rewrite octet_buffer; assumption]).
  destruct (append_octets s F N [] 0 n 0 r ltac:(zl) H C0 C) as [A _]. pose proof C as (C1 & C2 & C3).
  destruct (A ltac:(lia)) as (a & m & z & S & LA & LM & AP). destruct a; [|zl]. cbn [app] in S, AP.
  change (zlen (@nil Z)) with 0 in LM. rewrite octet_buffer in C2. exists m, z. replace (zlen m) with r by lia.
  split; [assumption|]. split; [lia|]. split; [assumption|]. split; [|assumption].
  intros k K. rewrite <- octet_buffer. apply C3. assumption.
Qed.
