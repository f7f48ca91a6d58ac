(** * Proofs: grapheme iteration and normalization of arbitrary NUL-terminated bytes *)
From Verif Require Import Prelude DataTables PropsModel Utf8Model TextModel Utf8Spec PropsProofs Utf8Proofs
  LawfulProofs GraphemeProofs GraphemeText ByteProofs SequenceProofs DecompProofs ComposeProofs.
Require Import ZifyBool ZifyNat.

(** No undefined behaviour other than overflow of a counter. *)
Definition no_ub {A} (r : res A) : Prop := forall u, r <> UB u.
Definition only_overflow {A} (r : res A) : Prop := forall u, r = UB u -> u = IntOverflow.
Lemma no_ub_bind {A B} (x : res A) (f : A -> res B) :
  no_ub x -> (forall a, x = Ok a -> no_ub (f a)) -> no_ub (bind x f).
Proof. intros H K u. destruct x as [a|v|]; cbn; [apply K; reflexivity| |discriminate]. intros E. apply (H v). reflexivity. Qed.
Lemma overflow_bind {A B} (x : res A) (f : A -> res B) :
  only_overflow x -> (forall a, x = Ok a -> only_overflow (f a)) -> only_overflow (bind x f).
Proof. intros H K u. destruct x as [a|v|]; cbn; [apply K; reflexivity| |discriminate]. intros E. injection E as <-. apply H. reflexivity. Qed.
Lemma no_ub_overflow {A} (r : res A) : no_ub r -> only_overflow r.
Proof. intros H u E. destruct (H u E). Qed.
Lemma no_ub_ok {A} (a : A) : no_ub (Ok a). Proof. intros u. discriminate. Qed.
Lemma no_ub_fuel {A} : no_ub (@OutOfFuel A). Proof. intros u. discriminate. Qed.

Section Bytes.
Context (s mem : list Z) (E : byte_env s mem).
Let e := zlen s.
Let ops := utf8_ops mem.

Definition extent_end (r : Z) : Z := r + announced_len (octet mem r).
Lemma ee_gt r : r + 1 <= extent_end r.
Proof. unfold extent_end. pose proof (announced_len_range (octet mem r)). lia. Qed.

Lemma eq_upto p q r : 0 <= p <= q -> q <= e -> closest_lead mem p r ->
  it_eq mem p q = Ok (q <? extent_end r).
Proof.
  intros Hp Hq Hr. pose proof (be_is_byte _ _ E) as FB. pose proof (be_len _ _ E) as LE. unfold e in *.
  destruct (rewind_bytes mem p FB (be_first _ _ E) ltac:(lia)) as (r' & Hr' & Hrw).
  assert (r' = r) by (eapply closest_lead_unique; eassumption). subst r'.
  unfold it_eq. rewrite Hrw. cbn [bind]. destruct Hr as (R1 & _ & _).
  rewrite rd_octet by lia. cbn [bind]. rewrite codepoint_size_spec by (apply octet_byte; assumption).
  cbn [bind]. pose proof (announced_len_range (octet mem r)). unfold extent_end.
  rewrite eq_loop_bytes by lia. f_equal. lia.
Qed.
(** Dereferencing may read the terminating NUL. *)
Lemma deref_upto p r : 0 <= p <= e -> closest_lead mem p r -> extent_end r <= e + 1 ->
  exists c, it_deref mem p = Ok (c, r) /\ codepoint31 c.
Proof.
  intros Hp Hr Hn. pose proof (be_is_byte _ _ E) as FB. pose proof (be_len _ _ E) as LE. unfold e, extent_end in *.
  destruct (rewind_bytes mem p FB (be_first _ _ E) ltac:(lia)) as (r' & Hr' & Hrw).
  assert (r' = r) by (eapply closest_lead_unique; eassumption). subst r'.
  pose proof (octet_byte mem p FB) as Bp. pose proof (octet_byte mem r FB) as Br.
  pose proof (be_upto _ _ r E) as Ur.
  unfold it_deref, current_codepoint. rewrite rd_octet by lia. cbn [bind].
  rewrite is_7bit_spec by assumption. destruct Hr as (R1 & R2 & R3).
  destruct (Z.ltb_spec (octet mem p) 128) as [S|S].
  - exists (char_int (octet mem p)). unfold char_int, codepoint31, is_byte in *.
    assert (r = p).
    { destruct (Z.eq_dec r p); [assumption|]. specialize (R3 p ltac:(lia)). unfold continuation_octet in R3. lia. }
    subst r. destruct (Z.ltb_spec (octet mem p) 128); [|lia].
    split; [reflexivity|]. lia.
  - rewrite Hrw. cbn [bind].
    replace (if r <? p then rd mem r else Ok (octet mem p)) with (Ok (octet mem r)).
    2: { rewrite rd_octet by lia. destruct (Z.ltb_spec r p); [reflexivity|]. replace p with r by lia. reflexivity. }
    cbn [bind]. rewrite codepoint_size_spec by assumption. cbn [bind].
    pose proof (mask_range (octet mem r) Br Ur) as (MA & MR).
    destruct (Z.ltb_spec (7 - announced_len (octet mem r)) 0); [lia|].
    pose proof (announced_len_range (octet mem r)).
    destruct (decode_loop_bytes (Z.to_nat (announced_len (octet mem r) - 1)) mem r _ (7 - announced_len (octet mem r)) FB
                ltac:(lia) ltac:(lia) MR ltac:(lia) ltac:(lia)) as (c & -> & HC).
    exists c. split; [reflexivity|assumption].
Qed.
Lemma decode_loop_oob n : forall p v k, 0 <= p < zlen mem -> zlen mem <= p + Z.of_nat n ->
  0 <= v < 2 ^ k -> 0 <= k -> k + 6 * Z.of_nat n <= 31 ->
  decode_loop n mem p v = UB OobRead.
Proof.
  pose proof (be_is_byte _ _ E) as FB.
  induction n as [|n IH]; intros p v k Hp Hm Hv Hk Hb; cbn [decode_loop]; [lia|].
  rewrite padd_ok by lia. cbn [bind].
  destruct (Z.eq_dec (p + 1) (zlen mem)) as [EQ|NE].
  - unfold rd. destruct (Z.ltb_spec (p + 1) 0); [lia|].
    destruct (nth_error mem (Z.to_nat (p + 1))) eqn:N; [|reflexivity].
    assert (Z.to_nat (p + 1) < length mem)%nat by (apply nth_error_Some; congruence). unfold zlen in *. lia.
  - rewrite rd_octet by lia. cbn [bind].
    assert (P : 2 ^ k <= 2 ^ 25) by (apply Z.pow_le_mono_r; lia).
    change (2 ^ 25) with 33554432 in P.
    unfold shl6. destruct (Z.leb_spec 0 v); [|lia].
    destruct (Z.ltb_spec (v * 64) 4294967296); [|lia]. cbn [andb bind].
    assert (EV : to_i32 (v * 64) = v * 64).
    { unfold to_i32. rewrite Z.mod_small by lia. destruct (Z.ltb_spec (v * 64) 2147483648); lia. }
    rewrite EV, low6_spec by (apply octet_byte; assumption).
    assert (L6 : 0 <= low6 (octet mem (p + 1)) < 64) by (unfold low6; apply Z.mod_pos_bound; lia).
    rewrite lor_low6 by assumption.
    apply (IH (p + 1) _ (k + 6)); try lia.
    rewrite Z.pow_add_r by lia. change (2 ^ 6) with 64. lia.
Qed.
Lemma deref_beyond r : 0 <= r <= e -> ~ continuation_octet (octet mem r) -> e + 1 < extent_end r ->
  it_deref mem r = UB OobRead.
Proof.
  intros Hp Hc Hn. pose proof (be_is_byte _ _ E) as FB. pose proof (be_len _ _ E) as LE. unfold e, extent_end in *.
  assert (Hr : closest_lead mem r r) by (split; [lia|]; split; [assumption|]; intros k Hk; lia).
  destruct (rewind_bytes mem r FB (be_first _ _ E) ltac:(lia)) as (r' & Hr' & Hrw).
  assert (r' = r) by (eapply closest_lead_unique; eassumption). subst r'.
  pose proof (octet_byte mem r FB) as Br. pose proof (be_upto _ _ r E) as Ur.
  unfold it_deref, current_codepoint. rewrite rd_octet by lia. cbn [bind].
  rewrite is_7bit_spec by assumption.
  destruct (Z.ltb_spec (octet mem r) 128) as [S|S].
  - exfalso. unfold announced_len in Hn. destruct (Z.ltb_spec (octet mem r) 192); lia.
  - rewrite Hrw, Z.ltb_irrefl. cbn [bind]. rewrite codepoint_size_spec by assumption. cbn [bind].
    pose proof (mask_range (octet mem r) Br Ur) as (MA & MR).
    destruct (Z.ltb_spec (7 - announced_len (octet mem r)) 0); [lia|].
    pose proof (announced_len_range (octet mem r)).
    rewrite (decode_loop_oob _ r _ (7 - announced_len (octet mem r))); [reflexivity|lia|lia|exact MR|lia|lia].
Qed.
Lemma inc_upto p r : 0 <= p <= e -> closest_lead mem p r -> extent_end r <= e ->
  op_step ops p = Ok (extent_end r).
Proof.
  intros Hp Hr Hn. unfold op_step, ops. cbn [op_postinc utf8_ops]. unfold it_postinc.
  rewrite (byte_inc s mem p r E Hp Hr Hn). reflexivity.
Qed.
Lemma lead_exists p : 0 <= p <= e -> exists r, closest_lead mem p r.
Proof. apply closest_lead_exists. assumption. Qed.

Lemma octet_e : octet mem e = 0.
Proof.
  rewrite (be_mem _ _ E). unfold octet, string_buffer, e, zlen.
  rewrite Nat2Z.id, app_nth2, Nat.sub_diag by lia. reflexivity.
Qed.
Lemma lead_e : closest_lead mem e e.
Proof.
  split; [split; [apply zlen_nonneg|lia]|]. split; [rewrite octet_e; unfold continuation_octet; lia|].
  intros k Hk. lia.
Qed.
Lemma ee_e : extent_end e = e + 1.
Proof. unfold extent_end. rewrite octet_e. reflexivity. Qed.

(** The walk of a codepoint loop bounded by a position at or after its start. *)
Lemma iterate_for_safe : forall fuel p q, 0 <= p <= q -> q <= e ->
  no_ub (iterate_codepoints_for fuel ops p q).
Proof.
  induction fuel as [|f IH]; intros p q Hp Hq; [apply no_ub_fuel|]. cbn [iterate_codepoints_for].
  destruct (lead_exists p ltac:(lia)) as (r & Hr). unfold op_neq. unfold ops at 1. cbn [op_eq utf8_ops].
  rewrite (eq_upto p q r) by assumption. cbn [bind].
  destruct (Z.ltb_spec q (extent_end r)) as [L|L]; [apply no_ub_ok|]. cbn [negb].
  destruct (deref_upto p r ltac:(lia) Hr ltac:(lia)) as (c & D & _).
  change (op_deref ops p) with (it_deref mem p). rewrite D. cbn [bind].
  assert (R : 0 <= r <= p) by (destruct Hr; lia).
  assert (Hrr : closest_lead mem r r).
  { destruct Hr as (R1 & R2 & R3). split; [lia|]. split; [assumption|]. intros k Hk. lia. }
  rewrite (inc_upto r r ltac:(lia) Hrr ltac:(lia)). cbn [bind]. pose proof (ee_gt r).
  apply no_ub_bind; [apply IH; lia|]. intros; apply no_ub_ok.
Qed.

(** A place a grapheme may start or end at: a non-continuation octet, or a place in the
    extent of a codepoint that covers the end. *)
Definition place (p : Z) : Prop := 0 <= p <= e /\
  (closest_lead mem p p \/ exists r, closest_lead mem p r /\ e < extent_end r).
Lemma find_end_loop_safe : forall fuel a w eog, closest_lead mem w w -> w <= eog <= e ->
  no_ub (find_end_loop fuel ops e a eog) /\
  forall x, find_end_loop fuel ops e a eog = Ok x -> w <= x /\ place x.
Proof.
  induction fuel as [|f IH]; intros a w eog Hw Hq; [split; [apply no_ub_fuel|discriminate]|]. cbn [find_end_loop].
  assert (W0 : 0 <= w) by (destruct Hw; lia).
  destruct (lead_exists eog ltac:(lia)) as (r & Hr).
  change (op_eq ops eog e) with (it_eq mem eog e).
  rewrite (eq_upto eog e r) by (assumption || lia). cbn [bind].
  destruct (Z.ltb_spec e (extent_end r)) as [L|L].
  { split; [apply no_ub_ok|]. intros x X. injection X as <-. split; [lia|]. split; [lia|]. right. exists r. auto. }
  destruct (deref_upto eog r ltac:(lia) Hr ltac:(lia)) as (c & D & _).
  change (op_deref ops eog) with (it_deref mem eog). rewrite D. cbn [bind].
  rewrite is_grapheme_boundary_eq. cbn [bind].
  assert (R : 0 <= r <= eog) by (destruct Hr; lia).
  assert (Hrr : closest_lead mem r r).
  { destruct Hr as (R1 & R2 & R3). split; [lia|]. split; [assumption|]. intros k Hk. lia. }
  assert (WR : w <= r).
  { destruct (Z.le_gt_cases w r); [assumption|]. exfalso. destruct Hw as (_ & W & _). apply W.
    destruct Hr as (_ & _ & R3). apply R3. lia. }
  destruct (brk a c).
  { split; [apply no_ub_ok|]. intros x X. injection X as <-. split; [lia|]. split; [lia|]. left. assumption. }
  rewrite (inc_upto r r ltac:(lia) Hrr L). cbn [bind]. pose proof (ee_gt r). apply IH; [assumption|lia].
Qed.
Lemma find_end_safe fuel w : place w ->
  no_ub (find_end_of_grapheme fuel ops e w) /\
  forall x, find_end_of_grapheme fuel ops e w = Ok x -> w <= x /\ place x.
Proof.
  intros (Hw & P). unfold find_end_of_grapheme. change (op_eq ops w e) with (it_eq mem w e).
  destruct (lead_exists w ltac:(lia)) as (r & Hr).
  rewrite (eq_upto w e r) by (assumption || lia). cbn [bind].
  destruct (Z.ltb_spec e (extent_end r)) as [L|L].
  { split; [apply no_ub_ok|]. intros x X. injection X as <-. split; [lia|]. split; assumption. }
  assert (LW : closest_lead mem w w).
  { destruct P as [P|(r' & Hr' & L')]; [assumption|]. assert (r' = r) by (eapply closest_lead_unique; eassumption). subst. lia. }
  assert (r = w) by (eapply closest_lead_unique; eassumption). subst r.
  destruct (deref_upto w w ltac:(lia) LW ltac:(lia)) as (c & D & _).
  change (op_deref ops w) with (it_deref mem w). rewrite D. cbn [bind].
  rewrite (inc_upto w w ltac:(lia) LW L). cbn [bind]. pose proof (ee_gt w).
  apply find_end_loop_safe; [assumption|lia].
Qed.

(** grapheme_end *)
Definition the_end : gi := {| g_begin := 0; g_end := e; g_where := e; g_eog := e |}.
Lemma find_end_e fuel : find_end_of_grapheme fuel ops e e = Ok e.
Proof.
  unfold find_end_of_grapheme. change (op_eq ops e e) with (it_eq mem e e).
  pose proof lead_e as LE. rewrite (eq_upto e e e) by (try apply LE; destruct LE; lia). cbn [bind].
  rewrite ee_e. destruct (Z.ltb_spec e (e + 1)); [reflexivity|lia].
Qed.
Lemma eq_e p : 0 <= p <= e -> op_eq ops e p = Ok (e =? p).
Proof.
  intros Hp. change (op_eq ops e p) with (it_eq mem e p). pose proof (be_is_byte _ _ E) as FB. pose proof (be_len _ _ E) as LE.
  destruct (rewind_bytes mem e FB (be_first _ _ E) ltac:(unfold e in *; lia)) as (r' & Hr' & Hrw).
  assert (r' = e) by (eapply closest_lead_unique; [eassumption|apply lead_e]). subst r'.
  unfold it_eq. rewrite Hrw. cbn [bind]. rewrite rd_octet by (unfold e in *; lia). cbn [bind].
  rewrite codepoint_size_spec by (apply octet_byte; assumption). rewrite octet_e. cbn [bind].
  change (Z.to_nat (announced_len 0)) with 1%nat. cbn [eq_loop].
  destruct (Z.eqb_spec e p); [reflexivity|]. rewrite padd_ok by (unfold e in *; lia). reflexivity.
Qed.
Lemma dec_e r : 0 < e -> closest_lead mem (e - 1) r -> op_dec ops e = Ok r.
Proof.
  intros Hp Hr. change (op_dec ops e) with (it_predec mem e). pose proof (be_is_byte _ _ E) as FB. pose proof (be_len _ _ E) as LE.
  unfold it_predec, rewind_one_codepoint.
  destruct (rewind_bytes mem e FB (be_first _ _ E) ltac:(unfold e in *; lia)) as (r' & Hr' & Hrw).
  assert (r' = e) by (eapply closest_lead_unique; [eassumption|apply lead_e]). subst r'.
  rewrite Hrw. cbn [bind]. rewrite padd_ok by (unfold e in *; lia). cbn [bind].
  destruct (rewind_bytes mem (e + -1) FB (be_first _ _ E) ltac:(unfold e in *; lia)) as (r' & Hr2 & Hrw').
  assert (r' = r) by (eapply closest_lead_unique; [exact Hr2|exact Hr]). subst r'.
  rewrite Hrw'. reflexivity.
Qed.
Lemma grapheme_end_empty fuel : e = 0 -> grapheme_end fuel ops 0 e = Ok the_end.
Proof.
  intros Z0. unfold grapheme_end, gi_make3, find_start_of_grapheme. rewrite eq_e by lia.
  destruct (Z.eqb_spec e 0); [|lia]. cbn [bind]. rewrite find_end_e. reflexivity.
Qed.
Lemma grapheme_end_safe fuel r : 0 < e -> closest_lead mem (e - 1) r -> extent_end r <= e + 1 ->
  grapheme_end (S fuel) ops 0 e = Ok the_end.
Proof.
  intros Hp Hr Hn. unfold grapheme_end, gi_make3, find_start_of_grapheme. rewrite eq_e by lia.
  destruct (Z.eqb_spec e 0); [lia|]. cbn [bind]. rewrite (dec_e r Hp Hr). cbn [bind].
  assert (R : 0 <= r <= e - 1) by (destruct Hr; lia).
  assert (Hrr : closest_lead mem r r).
  { destruct Hr as (R1 & R2 & R3). split; [lia|]. split; [assumption|]. intros k Hk. lia. }
  destruct (deref_upto r r ltac:(lia) Hrr Hn) as (c & D & _).
  change (op_deref ops r) with (it_deref mem r). rewrite D. cbn [bind]. cbn [find_start_loop].
  rewrite eq_e by lia. destruct (Z.eqb_spec e 0); [lia|]. cbn [bind].
  assert (DE : it_deref mem e = Ok (0, e)).
  { unfold it_deref, current_codepoint. pose proof (be_len _ _ E). rewrite rd_octet by (unfold e in *; lia). rewrite octet_e. reflexivity. }
  change (op_deref ops e) with (it_deref mem e). rewrite DE. cbn [bind]. rewrite is_grapheme_boundary_eq, brk_nul. cbn [bind].
  rewrite find_end_e. reflexivity.
Qed.
Lemma grapheme_end_oob fuel r : 0 < e -> closest_lead mem (e - 1) r -> e + 1 < extent_end r ->
  grapheme_end fuel ops 0 e = UB OobRead.
Proof.
  intros Hp Hr Hn. unfold grapheme_end, gi_make3, find_start_of_grapheme. rewrite eq_e by lia.
  destruct (Z.eqb_spec e 0); [lia|]. cbn [bind]. rewrite (dec_e r Hp Hr). cbn [bind].
  assert (R : 0 <= r <= e - 1) by (destruct Hr; lia). destruct Hr as (_ & R2 & _).
  change (op_deref ops r) with (it_deref mem r). rewrite (deref_beyond r) by (assumption || lia). reflexivity.
Qed.

(** Comparison with the end iterator. *)
Lemma eq_cp_end fuel p : 0 <= p <= e -> no_ub (gi_eq_cp fuel ops the_end p).
Proof.
  intros Hp. unfold gi_eq_cp. cbn [g_where g_eog the_end]. rewrite eq_e by assumption. cbn [bind].
  destruct (Z.eqb_spec e p); [apply no_ub_ok|]. destruct fuel as [|f]; [apply no_ub_fuel|]. cbn [gi_eq_cp_loop].
  rewrite eq_e by lia. rewrite Z.eqb_refl. apply no_ub_ok.
Qed.
Lemma eq_loop_end_safe : forall fuel p q, 0 <= p <= q -> q <= e ->
  no_ub (gi_eq_loop fuel ops q p the_end).
Proof.
  induction fuel as [|f IH]; intros p q Hp Hq; [apply no_ub_fuel|]. cbn [gi_eq_loop].
  destruct (lead_exists p ltac:(lia)) as (r & Hr).
  change (op_eq ops p q) with (it_eq mem p q). rewrite (eq_upto p q r) by assumption. cbn [bind].
  destruct (Z.ltb_spec q (extent_end r)) as [L|L]; [apply no_ub_ok|].
  apply no_ub_bind; [apply eq_cp_end; lia|]. intros [|] _; [apply no_ub_ok|].
  rewrite (inc_upto p r) by (assumption || lia). cbn [bind].
  assert (R : 0 <= r <= p) by (destruct Hr; lia). pose proof (ee_gt r). apply IH; lia.
Qed.
(** An iterator of the loop. *)
Definition good (g : gi) : Prop := g_end g = e /\ place (g_where g) /\ place (g_eog g) /\ g_where g <= g_eog g.
Lemma neq_end_safe fuel g : good g -> no_ub (gi_neq fuel ops g the_end).
Proof.
  intros (G1 & G2 & G3 & G4). unfold gi_neq. apply no_ub_bind; [|intros; apply no_ub_ok]. unfold gi_eq.
  destruct (lead_exists (g_where g)) as (r & Hr); [apply G2|].
  rewrite G1. change (op_eq ops (g_where g) e) with (it_eq mem (g_where g) e).
  rewrite (eq_upto (g_where g) e r) by (try assumption; destruct G2; lia). cbn [bind].
  apply no_ub_bind.
  - destruct (e <? extent_end r); [|apply no_ub_ok]. apply eq_cp_end. pose proof (zlen_nonneg s). unfold e in *. lia.
  - intros [|] _; [apply no_ub_ok|]. apply eq_loop_end_safe; destruct G2, G3; lia.
Qed.
Lemma step_safe fuel g : good g -> no_ub (gi_step fuel ops g) /\ forall g', gi_step fuel ops g = Ok g' -> good g'.
Proof.
  intros (G1 & G2 & G3 & G4). unfold gi_step, gi_postinc, gi_inc. rewrite G1.
  destruct (find_end_safe fuel (g_eog g) G3) as (A & B).
  destruct (find_end_of_grapheme fuel ops e (g_eog g)) as [x|u|] eqn:F; cbn [bind].
  - split; [apply no_ub_ok|]. intros g' X. injection X as <-. destruct (B x eq_refl).
    unfold good. cbn. auto.
  - destruct (A u eq_refl).
  - split; [apply no_ub_fuel|discriminate].
Qed.
Lemma begin_place : place 0.
Proof.
  pose proof (zlen_nonneg s). split; [unfold e; lia|]. left. split; [lia|]. split; [apply E|]. intros k Hk. lia.
Qed.
Lemma begin_safe fuel : no_ub (grapheme_begin fuel ops 0 e) /\
  forall g, grapheme_begin fuel ops 0 e = Ok g -> good g.
Proof.
  unfold grapheme_begin, gi_make2. destruct (find_end_safe fuel 0 begin_place) as (A & B).
  destruct (find_end_of_grapheme fuel ops e 0) as [x|u|] eqn:F; cbn [bind].
  - split; [apply no_ub_ok|]. intros g' X. injection X as <-. destruct (B x eq_refl).
    unfold good. cbn. split; [reflexivity|]. split; [apply begin_place|auto].
  - destruct (A u eq_refl).
  - split; [apply no_ub_fuel|discriminate].
Qed.
Lemma iterate_graphemes_safe fuel0 : forall fuel g, good g ->
  no_ub (iterate_graphemes fuel0 fuel ops g the_end).
Proof.
  induction fuel as [|f IH]; intros g G; [apply no_ub_fuel|]. cbn [iterate_graphemes].
  apply no_ub_bind; [apply neq_end_safe; assumption|]. intros [|] _; [|apply no_ub_ok].
  pose proof G as (_ & (G2 & _) & (G3 & _) & G4). unfold gi_deref.
  apply no_ub_bind; [apply iterate_for_safe; lia|]. intros cps _.
  destruct (step_safe fuel0 g G) as (A & B).
  apply no_ub_bind; [assumption|]. intros g' X.
  apply no_ub_bind; [apply IH; apply B; assumption|]. intros; apply no_ub_ok.
Qed.
Lemma filter_graphemes_safe {Out} fuel0 (f : Z * Z -> Out -> res (Z * Out)) :
  (forall p q o, 0 <= p <= q -> q <= e -> only_overflow (f (p, q) o)) ->
  forall fuel g o n, good g ->
  only_overflow (filter_loop fuel (gi_neq fuel0 ops) (fun g => Ok (gi_deref g, g)) (gi_step fuel0 ops) f g the_end o n).
Proof.
  intros HF. induction fuel as [|k IH]; intros g o n G; [apply no_ub_overflow, no_ub_fuel|]. cbn [filter_loop].
  apply overflow_bind; [apply no_ub_overflow, neq_end_safe; assumption|].
  intros [|] _; [|apply no_ub_overflow, no_ub_ok]. cbn [bind].
  pose proof G as (_ & (G2 & _) & (G3 & _) & G4). unfold gi_deref at 1.
  apply overflow_bind; [apply HF; lia|]. intros (m & o') _.
  apply overflow_bind.
  { unfold int_add. destruct (_ && _); [apply no_ub_overflow, no_ub_ok|]. intros u X. injection X as <-. reflexivity. }
  intros n' _. destruct (step_safe fuel0 g G) as (A & B).
  apply overflow_bind; [apply no_ub_overflow; assumption|]. intros g' X. apply IH, B. assumption.
Qed.
Lemma filter_codepoints_safe {Out} (f : Z -> Out -> res (Z * Out)) :
  (forall c o, codepoint31 c -> only_overflow (f c o)) ->
  forall fuel p q o n, 0 <= p <= q -> q <= e ->
  only_overflow (filter_loop fuel (op_neq ops) (op_deref ops) (op_step ops) f p q o n).
Proof.
  intros HF. induction fuel as [|k IH]; intros p q o n Hp Hq; [apply no_ub_overflow, no_ub_fuel|]. cbn [filter_loop].
  destruct (lead_exists p ltac:(lia)) as (r & Hr). unfold op_neq at 1. change (op_eq ops p q) with (it_eq mem p q).
  rewrite (eq_upto p q r) by assumption. cbn [bind].
  destruct (Z.ltb_spec q (extent_end r)) as [L|L]; [apply no_ub_overflow, no_ub_ok|]. cbn [negb].
  destruct (deref_upto p r ltac:(lia) Hr ltac:(lia)) as (c & D & HC).
  change (op_deref ops p) with (it_deref mem p). rewrite D. cbn [bind].
  apply overflow_bind; [apply HF; assumption|]. intros (m & o') _.
  apply overflow_bind.
  { unfold int_add. destruct (_ && _); [apply no_ub_overflow, no_ub_ok|]. intros u X. injection X as <-. reflexivity. }
  intros n' _.
  assert (R : 0 <= r <= p) by (destruct Hr; lia).
  assert (Hrr : closest_lead mem r r).
  { destruct Hr as (R1 & R2 & R3). split; [lia|]. split; [assumption|]. intros k' Hk. lia. }
  rewrite (inc_upto r r ltac:(lia) Hrr ltac:(lia)). cbn [bind]. pose proof (ee_gt r). apply IH; lia.
Qed.
End Bytes.

(** ** Normalization of arbitrary bytes *)
Section Normalize.
Context (s mem : list Z) (E : byte_env s mem).
Lemma decompose_safe dec full fuel p q : (forall c out, dec c out = Ok (zlen (full c), out ++ full c)) ->
  0 <= p <= q -> q <= zlen s -> only_overflow (decompose_grapheme fuel (utf8_ops mem) dec (p, q)).
Proof.
  intros HD Hp Hq. unfold decompose_grapheme, filter_codepoints, filter. cbn [fst snd].
  apply (filter_codepoints_safe s mem E); [|assumption|assumption]. intros c o _. rewrite HD. apply no_ub_overflow, no_ub_ok.
Qed.
Lemma decomposed_safe dec full sort fuel p q o : (forall c out, dec c out = Ok (zlen (full c), out ++ full c)) ->
  0 <= p <= q -> q <= zlen s ->
  only_overflow (form_decomposed sort utf32_append_from_utf32ne fuel (utf8_ops mem) dec (p, q) o).
Proof.
  intros HD Hp Hq. unfold form_decomposed. apply overflow_bind; [eapply decompose_safe; eassumption|].
  intros (n & d) _. apply no_ub_overflow, no_ub_ok.
Qed.
Lemma composed_safe dec full sort fuel p q o : (forall c out, dec c out = Ok (zlen (full c), out ++ full c)) ->
  0 <= p <= q -> q <= zlen s ->
  only_overflow (form_composed sort utf32_append_from_utf32ne fuel (utf8_ops mem) dec (p, q) o).
Proof.
  intros HD Hp Hq. unfold form_composed. apply overflow_bind; [eapply decompose_safe; eassumption|].
  intros (n & d) _. destruct (canonical_composition_ok (sort d) 0) as (rest & -> & _). cbn [bind].
  apply no_ub_overflow, no_ub_ok.
Qed.
Lemma normalize_safe fuel form : (forall p q o, 0 <= p <= q -> q <= zlen s -> only_overflow (form (p, q) o)) ->
  forall out, (forall fuel', grapheme_end (S fuel') (utf8_ops mem) 0 (zlen s) = Ok (the_end s)) ->
  only_overflow (normalize fuel (utf8_ops mem) form 0 (zlen s) out).
Proof.
  intros HF out HE. unfold normalize. destruct (begin_safe s mem E fuel) as (A & B).
  apply overflow_bind; [apply no_ub_overflow; assumption|]. intros g G. specialize (B g G).
  destruct fuel as [|f].
  - destruct (grapheme_end 0 (utf8_ops mem) 0 (zlen s)) as [x|u|] eqn:X; cbn [bind].
    + apply no_ub_overflow, no_ub_fuel.
    + exfalso. specialize (HE 0%nat). unfold grapheme_end, gi_make3, find_start_of_grapheme in *.
      destruct (op_eq (utf8_ops mem) (zlen s) 0) as [[]|v|]; cbn [bind] in *; try discriminate.
      * rewrite (find_end_e s mem E) in X. discriminate.
      * destruct (op_dec (utf8_ops mem) (zlen s)) as [x|v|]; cbn [bind] in *; try discriminate.
        destruct (op_deref (utf8_ops mem) x) as [[a y]|v|]; cbn [bind] in *; discriminate.
    + apply no_ub_overflow, no_ub_fuel.
  - rewrite HE. cbn [bind]. unfold filter_graphemes, filter. apply (filter_graphemes_safe s mem E); assumption.
Qed.
Lemma graphemes_safe fuel : (forall fuel', grapheme_end (S fuel') (utf8_ops mem) 0 (zlen s) = Ok (the_end s)) ->
  no_ub (graphemes fuel (utf8_ops mem) 0 (zlen s)).
Proof.
  intros HE. unfold graphemes. destruct (begin_safe s mem E fuel) as (A & B).
  apply no_ub_bind; [assumption|]. intros g G. specialize (B g G).
  destruct fuel as [|f].
  - destruct (grapheme_end 0 (utf8_ops mem) 0 (zlen s)) as [x|u|] eqn:X; cbn [bind].
    + apply no_ub_fuel.
    + exfalso. specialize (HE 0%nat). unfold grapheme_end, gi_make3, find_start_of_grapheme in *.
      destruct (op_eq (utf8_ops mem) (zlen s) 0) as [[]|v|]; cbn [bind] in *; try discriminate.
      * rewrite (find_end_e s mem E) in X. discriminate.
      * destruct (op_dec (utf8_ops mem) (zlen s)) as [x|v|]; cbn [bind] in *; try discriminate.
        destruct (op_deref (utf8_ops mem) x) as [[a y]|v|]; cbn [bind] in *; discriminate.
    + apply no_ub_fuel.
  - rewrite HE. cbn [bind]. apply (iterate_graphemes_safe s mem E); assumption.
Qed.
(** The last codepoint may lack one octet, for which the NUL is taken. *)
Lemma end_cases : (zlen s = 0 /\ forall fuel, grapheme_end fuel (utf8_ops mem) 0 (zlen s) = Ok (the_end s)) \/
  (exists r, closest_lead mem (zlen s - 1) r /\
    ((r + announced_len (octet mem r) <= zlen s + 1 /\ forall fuel, grapheme_end (S fuel) (utf8_ops mem) 0 (zlen s) = Ok (the_end s)) \/
     (zlen s + 1 < r + announced_len (octet mem r) /\ forall fuel, grapheme_end fuel (utf8_ops mem) 0 (zlen s) = UB OobRead))).
Proof.
  pose proof (zlen_nonneg s). destruct (Z.eq_dec (zlen s) 0) as [Z0|Z0].
  - left. split; [assumption|]. intros fuel. apply (grapheme_end_empty s mem E). assumption.
  - right. destruct (lead_exists s mem E (zlen s - 1) ltac:(lia)) as (r & Hr). exists r. split; [assumption|].
    destruct (Z.le_gt_cases (r + announced_len (octet mem r)) (zlen s + 1)) as [L|L].
    + left. split; [assumption|]. intros fuel. apply (grapheme_end_safe s mem E fuel r); [lia|assumption|exact L].
    + right. split; [lia|]. intros fuel. apply (grapheme_end_oob s mem E fuel r); [lia|assumption|unfold extent_end; lia].
Qed.
End Normalize.

(** ** Two memories that look alike to a forward walk *)
Record forward (ops : cp_ops) (vals : list Z) (pos : nat -> Z) (e : Z) : Prop := {
  fw_deref : forall i v, nth_error vals i = Some v -> op_deref ops (pos i) = Ok (v, pos i);
  fw_step : forall i, (i < length vals)%nat -> op_step ops (pos i) = Ok (pos (S i));
  fw_eq : forall i j, (i <= j <= length vals)%nat -> op_eq ops (pos i) (pos j) = Ok (i =? j)%nat;
  fw_end : forall i, (i <= length vals)%nat -> op_eq ops (pos i) e = Ok (i =? length vals)%nat;
  fw_end_end : op_eq ops e e = Ok true;
  fw_end_eq : forall i, (i < length vals)%nat -> op_eq ops e (pos i) = Ok false
}.
Section Alike.
Context (vals : list Z) (pos : nat -> Z) (ops1 ops2 : cp_ops) (e1 e2 : Z).
Context (F1 : forward ops1 vals pos e1) (F2 : forward ops2 vals pos e2).
Let n := length vals.

Lemma alike_find_end_loop : forall fuel a i, (i <= n)%nat ->
  find_end_loop fuel ops1 e1 a (pos i) = find_end_loop fuel ops2 e2 a (pos i) /\
  (forall u, find_end_loop fuel ops1 e1 a (pos i) <> UB u) /\
  (forall x, find_end_loop fuel ops1 e1 a (pos i) = Ok x -> exists j, (i <= j <= n)%nat /\ x = pos j).
Proof.
  induction fuel as [|f IH]; intros a i Hi; [repeat split; discriminate|]. cbn [find_end_loop].
  rewrite (fw_end _ _ _ _ F1 i Hi), (fw_end _ _ _ _ F2 i Hi). cbn [bind].
  destruct (Nat.eqb_spec i (length vals)) as [Q|Q].
  { split; [reflexivity|]. split; [discriminate|]. intros x X. injection X as <-. exists i. split; [lia|reflexivity]. }
  destruct (nth_lt_some vals i ltac:(lia)) as [v Ev].
  rewrite (fw_deref _ _ _ _ F1 i v Ev), (fw_deref _ _ _ _ F2 i v Ev). cbn [bind].
  rewrite is_grapheme_boundary_eq. cbn [bind]. destruct (brk a v).
  { split; [reflexivity|]. split; [discriminate|]. intros x X. injection X as <-. exists i. split; [lia|reflexivity]. }
  rewrite (fw_step _ _ _ _ F1 i ltac:(lia)), (fw_step _ _ _ _ F2 i ltac:(lia)). cbn [bind].
  destruct (IH v (S i) ltac:(unfold n in *; lia)) as (A & B & C). split; [assumption|]. split; [assumption|].
  intros x X. destruct (C x X) as (j & Hj & ->). exists j. split; [lia|reflexivity].
Qed.
Lemma alike_find_end fuel i : (i <= n)%nat ->
  find_end_of_grapheme fuel ops1 e1 (pos i) = find_end_of_grapheme fuel ops2 e2 (pos i) /\
  (forall u, find_end_of_grapheme fuel ops1 e1 (pos i) <> UB u) /\
  (forall x, find_end_of_grapheme fuel ops1 e1 (pos i) = Ok x -> exists j, (i <= j <= n)%nat /\ x = pos j).
Proof.
  intros Hi. unfold find_end_of_grapheme.
  rewrite (fw_end _ _ _ _ F1 i Hi), (fw_end _ _ _ _ F2 i Hi). cbn [bind].
  destruct (Nat.eqb_spec i (length vals)) as [Q|Q].
  { split; [reflexivity|]. split; [discriminate|]. intros x X. injection X as <-. exists i. split; [lia|reflexivity]. }
  destruct (nth_lt_some vals i ltac:(lia)) as [v Ev].
  rewrite (fw_deref _ _ _ _ F1 i v Ev), (fw_deref _ _ _ _ F2 i v Ev). cbn [bind].
  rewrite (fw_step _ _ _ _ F1 i ltac:(lia)), (fw_step _ _ _ _ F2 i ltac:(lia)). cbn [bind].
  destruct (alike_find_end_loop fuel v (S i) ltac:(unfold n in *; lia)) as (A & B & C). split; [assumption|]. split; [assumption|].
  intros x X. destruct (C x X) as (j & Hj & ->). exists j. split; [lia|reflexivity].
Qed.
Lemma alike_iterate : forall fuel i j, (i <= j <= n)%nat ->
  iterate_codepoints_for fuel ops1 (pos i) (pos j) = iterate_codepoints_for fuel ops2 (pos i) (pos j).
Proof.
  induction fuel as [|f IH]; intros i j H; [reflexivity|]. cbn [iterate_codepoints_for]. unfold op_neq.
  rewrite (fw_eq _ _ _ _ F1 i j H), (fw_eq _ _ _ _ F2 i j H). cbn [bind].
  destruct (Nat.eqb_spec i j) as [Q|Q]; [reflexivity|]. cbn [negb].
  destruct (nth_lt_some vals i ltac:(unfold n in *; lia)) as [v Ev].
  rewrite (fw_deref _ _ _ _ F1 i v Ev), (fw_deref _ _ _ _ F2 i v Ev). cbn [bind].
  rewrite (fw_step _ _ _ _ F1 i ltac:(unfold n in *; lia)), (fw_step _ _ _ _ F2 i ltac:(unfold n in *; lia)). cbn [bind].
  rewrite IH by lia. reflexivity.
Qed.
Lemma alike_filter_codepoints {Out} (f : Z -> Out -> res (Z * Out)) : forall fuel i j o c, (i <= j <= n)%nat ->
  filter_loop fuel (op_neq ops1) (op_deref ops1) (op_step ops1) f (pos i) (pos j) o c =
  filter_loop fuel (op_neq ops2) (op_deref ops2) (op_step ops2) f (pos i) (pos j) o c.
Proof.
  induction fuel as [|k IH]; intros i j o c H; [reflexivity|]. cbn [filter_loop]. unfold op_neq at 1 3.
  rewrite (fw_eq _ _ _ _ F1 i j H), (fw_eq _ _ _ _ F2 i j H). cbn [bind].
  destruct (Nat.eqb_spec i j) as [Q|Q]; [reflexivity|]. cbn [negb].
  destruct (nth_lt_some vals i ltac:(unfold n in *; lia)) as [v Ev].
  rewrite (fw_deref _ _ _ _ F1 i v Ev), (fw_deref _ _ _ _ F2 i v Ev). cbn [bind].
  destruct (f v o) as [[m o']|u|]; [|reflexivity|reflexivity]. cbn [bind].
  destruct (int_add c m) as [c'|u|]; [|reflexivity|reflexivity]. cbn [bind].
  rewrite (fw_step _ _ _ _ F1 i ltac:(unfold n in *; lia)), (fw_step _ _ _ _ F2 i ltac:(unfold n in *; lia)). cbn [bind].
  apply IH. lia.
Qed.
(** Iterators that differ in their end only. *)
Definition alike (g1 g2 : gi) : Prop := g_end g1 = e1 /\ g_end g2 = e2 /\
  exists i j, (i <= j <= n)%nat /\ g_where g1 = pos i /\ g_where g2 = pos i /\ g_eog g1 = pos j /\ g_eog g2 = pos j.
Definition end_at (e : Z) (g : gi) : Prop := g_end g = e /\ g_where g = e /\ g_eog g = e.
Lemma end_eq_cp ops e g fuel i : forward ops vals pos e -> end_at e g -> (i < n)%nat -> (0 < fuel)%nat ->
  gi_eq_cp fuel ops g (pos i) = Ok false.
Proof.
  intros F (G1 & G2 & G3) Hi Hf. unfold gi_eq_cp. rewrite G2, G3, (fw_end_eq _ _ _ _ F i Hi). cbn [bind].
  destruct fuel as [|f]; [lia|]. cbn [gi_eq_cp_loop]. rewrite (fw_end_end _ _ _ _ F). reflexivity.
Qed.
Lemma end_eq_end ops e g fuel : forward ops vals pos e -> end_at e g -> gi_eq_cp fuel ops g e = Ok true.
Proof. intros F (G1 & G2 & G3). unfold gi_eq_cp. rewrite G2, (fw_end_end _ _ _ _ F). reflexivity. Qed.
Lemma alike_eq_loop E1 E2 : end_at e1 E1 -> end_at e2 E2 -> forall fuel i j, (i <= j <= n)%nat ->
  gi_eq_loop fuel ops1 (pos j) (pos i) E1 = gi_eq_loop fuel ops2 (pos j) (pos i) E2.
Proof.
  intros H1 H2. induction fuel as [|f IH]; intros i j H; [reflexivity|]. cbn [gi_eq_loop].
  rewrite (fw_eq _ _ _ _ F1 i j H), (fw_eq _ _ _ _ F2 i j H). cbn [bind].
  destruct (Nat.eqb_spec i j) as [Q|Q]; [reflexivity|].
  rewrite (end_eq_cp ops1 e1 E1 (S f) i F1 H1), (end_eq_cp ops2 e2 E2 (S f) i F2 H2) by lia. cbn [bind].
  rewrite (fw_step _ _ _ _ F1 i ltac:(unfold n in *; lia)), (fw_step _ _ _ _ F2 i ltac:(unfold n in *; lia)). cbn [bind].
  apply IH. lia.
Qed.
Lemma alike_neq E1 E2 g1 g2 fuel : end_at e1 E1 -> end_at e2 E2 -> alike g1 g2 ->
  gi_neq fuel ops1 g1 E1 = gi_neq fuel ops2 g2 E2.
Proof.
  intros H1 H2 (G1 & G2 & i & j & H & W1 & W2 & X1 & X2). unfold gi_neq, gi_eq.
  rewrite G1, G2, W1, W2, X1, X2.
  rewrite (fw_end _ _ _ _ F1 i ltac:(unfold n in *; lia)), (fw_end _ _ _ _ F2 i ltac:(unfold n in *; lia)). cbn [bind].
  rewrite (end_eq_end ops1 e1 E1 fuel F1 H1), (end_eq_end ops2 e2 E2 fuel F2 H2).
  rewrite (alike_eq_loop E1 E2 H1 H2 fuel i j H). reflexivity.
Qed.
Lemma alike_step g1 g2 fuel : alike g1 g2 ->
  (gi_step fuel ops1 g1 = OutOfFuel /\ gi_step fuel ops2 g2 = OutOfFuel) \/
  exists h1 h2, gi_step fuel ops1 g1 = Ok h1 /\ gi_step fuel ops2 g2 = Ok h2 /\ alike h1 h2.
Proof.
  intros (G1 & G2 & i & j & H & W1 & W2 & X1 & X2). unfold gi_step, gi_postinc, gi_inc.
  rewrite G1, G2, X1, X2. destruct (alike_find_end fuel j ltac:(lia)) as (A & B & C). rewrite <- A.
  destruct (find_end_of_grapheme fuel ops1 e1 (pos j)) as [x|u|]; cbn [bind].
  - right. destruct (C x eq_refl) as (k & Hk & ->). eexists _, _. split; [reflexivity|]. split; [reflexivity|].
    split; [reflexivity|]. split; [reflexivity|]. exists j, k. cbn. repeat split; lia.
  - destruct (B u eq_refl).
  - left. split; reflexivity.
Qed.
Lemma alike_graphemes_loop E1 E2 fuel0 : end_at e1 E1 -> end_at e2 E2 -> forall fuel g1 g2, alike g1 g2 ->
  iterate_graphemes fuel0 fuel ops1 g1 E1 = iterate_graphemes fuel0 fuel ops2 g2 E2.
Proof.
  intros H1 H2. induction fuel as [|f IH]; intros g1 g2 G; [reflexivity|]. cbn [iterate_graphemes].
  rewrite (alike_neq E1 E2 g1 g2 fuel0 H1 H2 G).
  destruct (gi_neq fuel0 ops2 g2 E2) as [[]|u|]; cbn [bind]; try reflexivity.
  pose proof G as (_ & _ & i & j & H & W1 & W2 & X1 & X2). unfold gi_deref. rewrite W1, W2, X1, X2.
  rewrite (alike_iterate fuel0 i j H). destruct (iterate_codepoints_for fuel0 ops2 (pos i) (pos j)); cbn [bind]; try reflexivity.
  destruct (alike_step g1 g2 fuel0 G) as [(-> & ->)|(h1 & h2 & -> & -> & A)]; [reflexivity|]. cbn [bind].
  rewrite (IH h1 h2 A). reflexivity.
Qed.
Lemma alike_filter {Out} E1 E2 fuel0 (f1 f2 : Z * Z -> Out -> res (Z * Out)) : end_at e1 E1 -> end_at e2 E2 ->
  (forall i j o, (i <= j <= n)%nat -> f1 (pos i, pos j) o = f2 (pos i, pos j) o) ->
  forall fuel g1 g2 o c, alike g1 g2 ->
  filter_loop fuel (gi_neq fuel0 ops1) (fun g => Ok (gi_deref g, g)) (gi_step fuel0 ops1) f1 g1 E1 o c =
  filter_loop fuel (gi_neq fuel0 ops2) (fun g => Ok (gi_deref g, g)) (gi_step fuel0 ops2) f2 g2 E2 o c.
Proof.
  intros H1 H2 HF. induction fuel as [|k IH]; intros g1 g2 o c G; [reflexivity|]. cbn [filter_loop].
  rewrite (alike_neq E1 E2 g1 g2 fuel0 H1 H2 G).
  destruct (gi_neq fuel0 ops2 g2 E2) as [[]|u|]; cbn [bind]; try reflexivity.
  pose proof G as (_ & _ & i & j & H & W1 & W2 & X1 & X2). unfold gi_deref at 1 3. rewrite W1, W2, X1, X2.
  rewrite (HF i j o H). destruct (f2 (pos i, pos j) o) as [[m o']|u|]; cbn [bind]; try reflexivity.
  destruct (int_add c m) as [c'|u|]; cbn [bind]; try reflexivity.
  destruct (alike_step g1 g2 fuel0 G) as [(-> & ->)|(h1 & h2 & -> & -> & A)]; [reflexivity|]. cbn [bind].
  apply IH. assumption.
Qed.
Lemma alike_begin fuel : 
  (grapheme_begin fuel ops1 (pos 0) e1 = OutOfFuel /\ grapheme_begin fuel ops2 (pos 0) e2 = OutOfFuel) \/
  exists h1 h2, grapheme_begin fuel ops1 (pos 0) e1 = Ok h1 /\ grapheme_begin fuel ops2 (pos 0) e2 = Ok h2 /\ alike h1 h2.
Proof.
  unfold grapheme_begin, gi_make2. destruct (alike_find_end fuel 0%nat ltac:(lia)) as (A & B & C). rewrite <- A.
  destruct (find_end_of_grapheme fuel ops1 e1 (pos 0%nat)) as [x|u|]; cbn [bind].
  - right. destruct (C x eq_refl) as (k & Hk & ->). eexists _, _. split; [reflexivity|]. split; [reflexivity|].
    split; [reflexivity|]. split; [reflexivity|]. exists 0%nat, k. cbn. repeat split; lia.
  - destruct (B u eq_refl).
  - left. split; reflexivity.
Qed.
End Alike.

(** ** A text whose last codepoint is cut *)
Section Cut.
Context (os : list (list Z)) (o : list Z) (FO : Forall octet_sequence os) (CO : cut_sequence o).
Let s := concat os ++ o.
Let mem := string_buffer s.
Let pos := spos 0 os.
Let n := length os.
Lemma cut_mem : mem = [] ++ concat os ++ (o ++ [0]).
Proof. unfold mem, s, string_buffer. rewrite <- app_assoc. reflexivity. Qed.
Lemma pos_n : pos n = zlen (concat os).
Proof. unfold pos, spos, n. rewrite firstn_all. lia. Qed.
Lemma pos_le_n i : (i <= n)%nat -> 0 <= pos i <= zlen (concat os).
Proof.
  intros H. rewrite <- pos_n. split; [|apply spos_le; assumption]. unfold pos, spos. pose proof (zlen_nonneg (concat (firstn i os))). lia.
Qed.
Lemma cut_len : zlen s = zlen (concat os) + zlen o /\ 1 <= zlen o.
Proof.
  destruct CO as (lead & tail & -> & _). unfold s. pose proof (zlen_nonneg tail). split; [zl|]. rewrite zlen_cons. lia.
Qed.
Lemma octet_o : octet mem (zlen (concat os)) = nth 0 o 0.
Proof.
  rewrite cut_mem. destruct CO as (lead & tail & -> & _). unfold octet, zlen. rewrite Nat2Z.id. cbn [app].
  rewrite app_nth2, Nat.sub_diag by lia. reflexivity.
Qed.
Lemma octet_tail k : zlen (concat os) < k <= zlen s - 1 -> continuation_octet (octet mem k).
Proof.
  intros H. destruct cut_len as [L _]. pose proof cut_mem as CM. clearbody mem. destruct CO as (lead & tail & E & _ & FT & _).
  assert (In (octet mem k) tail).
  { rewrite CM. unfold octet. cbn [app]. rewrite app_nth2 by (unfold zlen in *; lia). rewrite E in *. cbn [app].
    replace (Z.to_nat k - length (concat os))%nat with (S (Z.to_nat k - length (concat os) - 1)) by (unfold zlen in *; lia).
    cbn [nth]. rewrite app_nth1 by (unfold zlen in *; cbn [length] in *; lia). apply nth_In. unfold zlen in *; cbn [length] in *; lia. }
  rewrite Forall_forall in FT. auto.
Qed.
Lemma cut_upto : Forall octet_upto_FD s.
Proof.
  unfold s. apply Forall_app. split.
  - apply Forall_concat. eapply Forall_impl; [|exact FO]. intros x [_ H]. exact H.
  - destruct CO as (lead & tail & -> & _ & FT & U & _). constructor; [assumption|].
    eapply Forall_impl; [|exact FT]. unfold continuation_octet, octet_upto_FD. lia.
Qed.
Lemma cut_first : ~ continuation_octet (octet s 0).
Proof.
  unfold s, octet. change (Z.to_nat 0) with 0%nat. destruct os as [|q t] eqn:X.
  - destruct CO as (lead & tail & -> & C & _). exact C.
  - inversion FO as [|? ? [(lead & tail & -> & C & _) _] _]; subst. exact C.
Qed.
Lemma cut_env : byte_env s mem.
Proof. apply byte_env_string; [exact cut_upto|apply octet_string_first; exact cut_first]. Qed.
Lemma lead_n : closest_lead mem (pos n) (pos n).
Proof.
  rewrite pos_n. split; [pose proof (zlen_nonneg (concat os)); lia|]. split; [|intros; lia].
  rewrite octet_o. destruct CO as (lead & tail & -> & C & _). exact C.
Qed.
Lemma lead_last : closest_lead mem (zlen s - 1) (pos n).
Proof.
  destruct cut_len as [L L1]. destruct lead_n as (_ & C & _). rewrite pos_n in *.
  split; [pose proof (zlen_nonneg (concat os)); lia|]. split; [assumption|]. exact octet_tail.
Qed.
Lemma ee_n : extent_end mem (pos n) = zlen (concat os) + announced_len (nth 0 o 0).
Proof. unfold extent_end. rewrite pos_n, octet_o. reflexivity. Qed.
Lemma cut_beyond : zlen s < extent_end mem (pos n).
Proof.
  rewrite ee_n. destruct cut_len as [L _]. destruct CO as (lead & tail & E & _ & _ & _ & H). rewrite E in *. cbn [nth].
  unfold zlen in *. lia.
Qed.
Lemma cut_chunk i p : (i < n)%nat -> pos i <= p < pos (S i) ->
  (forall v, nth_error (map sequence_value os) i = Some v -> it_deref mem p = Ok (v, pos i)) /\
  it_preinc mem p = Ok (pos (S i)) /\
  (forall q, it_eq mem p q = Ok ((pos i <=? q) && (q <? pos (S i)))).
Proof.
  intros Hi Hp. destruct (nth_lt_some os i ltac:(unfold n in *; lia)) as [q Eq].
  destruct (seq_locate [] os (o ++ [0]) i q p FO Eq Hp) as (A & lead & tail & B & j & EM & _ & Hch & Hv & _ & LA & LS & -> & Hj).
  rewrite cut_mem, EM. change (spos (zlen (@nil Z)) os) with pos in *. split; [|split].
  - intros v Ev. rewrite nth_error_map, Eq in Ev. cbn in Ev. injection Ev as <-.
    unfold it_deref. rewrite deref_chunk by assumption. rewrite Hv, LA. reflexivity.
  - unfold it_preinc. rewrite forward_chunk by assumption. rewrite LS. reflexivity.
  - intros x. rewrite eq_chunk by assumption. rewrite LS, <- LA. reflexivity.
Qed.
Lemma pos_lt i j : (i < j)%nat -> (i < n)%nat -> pos i < pos j.
Proof. intros. apply spos_lt; assumption. Qed.
Lemma cut_forward : forward (utf8_ops mem) (map sequence_value os) pos (zlen s).
Proof.
  destruct cut_len as [L L1]. constructor; rewrite ?map_length; fold n.
  - intros i v Ev. assert (Hi : (i < n)%nat) by (unfold n; rewrite <- (map_length sequence_value os); apply nth_error_Some; congruence).
    destruct (cut_chunk i (pos i) Hi) as (A & _); [split; [lia|apply pos_lt; lia]|]. apply A. assumption.
  - intros i Hi. destruct (cut_chunk i (pos i) Hi) as (_ & A & _); [split; [lia|apply pos_lt; lia]|].
    unfold op_step. cbn [op_postinc utf8_ops]. unfold it_postinc. rewrite A. reflexivity.
  - intros i j H. cbn [op_eq utf8_ops]. destruct (Nat.eq_dec i n) as [->|Hne].
    + replace j with n by lia. rewrite Nat.eqb_refl. pose proof (pos_le_n n ltac:(lia)).
      rewrite (eq_upto s mem cut_env (pos n) (pos n) (pos n)); [|lia|lia|exact lead_n].
      pose proof (ee_gt s mem (pos n)). destruct (Z.ltb_spec (pos n) (extent_end mem (pos n))); [reflexivity|lia].
    + destruct (cut_chunk i (pos i) ltac:(lia)) as (_ & _ & A); [split; [lia|apply pos_lt; lia]|]. rewrite A. f_equal.
      destruct (Nat.eqb_spec i j) as [->|Q].
      * pose proof (pos_lt j (S j) ltac:(lia) ltac:(lia)). lia.
      * pose proof (spos_le 0 os (S i) j ltac:(lia)) as SL. change (spos 0 os (S i)) with (pos (S i)) in SL. change (spos 0 os j) with (pos j) in SL. lia.
  - intros i Hi. cbn [op_eq utf8_ops]. pose proof cut_beyond as CB. destruct (Nat.eqb_spec i n) as [->|Q].
    + pose proof (pos_le_n n ltac:(lia)). rewrite (eq_upto s mem cut_env (pos n) (zlen s) (pos n)); [|lia|lia|exact lead_n].
      f_equal. lia.
    + destruct (cut_chunk i (pos i) ltac:(lia)) as (_ & _ & A); [split; [lia|apply pos_lt; lia]|]. rewrite A. f_equal.
      pose proof (pos_le_n (S i) ltac:(lia)). lia.
  - pose proof (eq_e s mem cut_env (zlen s)) as X. rewrite X by (pose proof (zlen_nonneg s); lia). f_equal. apply Z.eqb_refl.
  - intros i Hi. pose proof (pos_le_n i ltac:(lia)).
    pose proof (eq_e s mem cut_env (pos i)) as X. rewrite X by lia. f_equal. lia.
Qed.
Lemma cut_loops fuel : (n < fuel)%nat ->
  iterate_codepoints fuel (utf8_ops mem) 0 (zlen s) = Ok (map sequence_value os) /\
  iterate_codepoints_for fuel (utf8_ops mem) 0 (zlen s) = Ok (map sequence_value os).
Proof.
  pose proof cut_forward as FW.
  assert (G : forall m i f, (n - i = m)%nat -> (i <= n)%nat -> (m < f)%nat ->
    iterate_codepoints f (utf8_ops mem) (pos i) (zlen s) = Ok (skipn i (map sequence_value os)) /\
    iterate_codepoints_for f (utf8_ops mem) (pos i) (zlen s) = Ok (skipn i (map sequence_value os))).
  { induction m as [|m IH]; intros i f Hm Hi Hf; (destruct f as [|f]; [lia|]); cbn [iterate_codepoints iterate_codepoints_for];
      unfold op_neq; rewrite (fw_end _ _ _ _ FW i) by (rewrite map_length; assumption); rewrite map_length; fold n; cbn [bind].
    - destruct (Nat.eqb_spec i n); [|lia]. cbn [negb]. rewrite skipn_all2 by (rewrite map_length; fold n; lia). auto.
    - destruct (Nat.eqb_spec i n); [lia|]. cbn [negb].
      destruct (nth_lt_some (map sequence_value os) i) as [v Ev]; [rewrite map_length; fold n; lia|].
      rewrite (fw_deref _ _ _ _ FW i v Ev). cbn [bind]. rewrite (fw_step _ _ _ _ FW i) by (rewrite map_length; fold n; lia). cbn [bind].
      destruct (cut_chunk i (pos i) ltac:(lia)) as (_ & A & _); [split; [lia|apply pos_lt; lia]|].
      assert (AP : op_postinc (utf8_ops mem) (pos i) = Ok (pos i, pos (S i))).
      { cbn [op_postinc utf8_ops]. unfold it_postinc. rewrite A. reflexivity. }
      rewrite AP. cbn [bind]. rewrite (fw_deref _ _ _ _ FW i v Ev). cbn [bind].
      destruct (IH (S i) f ltac:(lia) ltac:(lia) ltac:(lia)) as (-> & ->). cbn [bind].
      rewrite (skipn_cons_nth _ _ _ Ev). auto. }
  intros Hf. destruct (G n 0%nat fuel ltac:(lia) ltac:(lia) Hf) as (A & B). split; [exact A|exact B].
Qed.
Lemma cut_end : Z.of_nat (length o) + 1 = announced_len (nth 0 o 0) ->
  forall fuel, grapheme_end (S fuel) (utf8_ops mem) 0 (zlen s) = Ok (the_end s).
Proof.
  intros H fuel. destruct cut_len as [L L1]. apply (grapheme_end_safe s mem cut_env fuel (pos n)).
  - pose proof (zlen_nonneg (concat os)). lia.
  - exact lead_last.
  - rewrite ee_n. unfold zlen in *. lia.
Qed.
Lemma cut_end_oob : Z.of_nat (length o) + 1 <> announced_len (nth 0 o 0) ->
  forall fuel, grapheme_end fuel (utf8_ops mem) 0 (zlen s) = UB OobRead.
Proof.
  intros H fuel. destruct cut_len as [L L1]. apply (grapheme_end_oob s mem cut_env fuel (pos n)).
  - pose proof (zlen_nonneg (concat os)). lia.
  - exact lead_last.
  - rewrite ee_n. destruct CO as (lead & tail & E & _ & _ & _ & HL). rewrite E in *. cbn [nth] in *. unfold zlen in *. lia.
Qed.
End Cut.

(** The complete part alone. *)
Lemma whole_forward os : Forall octet_sequence os ->
  forward (utf8_ops (string_buffer (concat os))) (map sequence_value os) (spos 0 os) (zlen (concat os)).
Proof.
  intros FO. pose proof (seq_string_lawful os FO) as L.
  assert (LL : length (map sequence_value os ++ [0]) = S (length os)) by (rewrite app_length, map_length; cbn; lia).
  assert (P : forall i, (i <= length os)%nat -> spos 0 (os ++ [[0]]) i = spos 0 os i).
  { intros i Hi. rewrite spos_firstn by assumption. unfold spos. reflexivity. }
  assert (PE : zlen (concat os) = spos 0 (os ++ [[0]]) (length os)) by (rewrite spos_end; lia).
  assert (IN : forall i, (i <= length os)%nat -> sinside 0 (os ++ [[0]]) i (spos 0 (os ++ [[0]]) i)).
  { intros i Hi. apply (lw_pos _ _ _ _ L). lia. }
  constructor; rewrite ?map_length.
  - intros i v Ev. assert (Hi : (i < length os)%nat) by (rewrite <- (map_length sequence_value os); apply nth_error_Some; congruence).
    rewrite <- P by lia. apply (lw_deref _ _ _ _ L); [|apply IN; lia]. rewrite nth_error_app1 by (rewrite map_length; lia). assumption.
  - intros i Hi. rewrite <- !P by lia. apply (lw_step _ _ _ _ L); [lia|apply IN; lia].
  - intros i j H. rewrite <- !P by lia. apply (lw_eq _ _ _ _ L); try lia; apply IN; lia.
  - intros i H. rewrite PE, <- P by lia. apply (lw_eq _ _ _ _ L); try lia; apply IN; lia.
  - rewrite PE. rewrite (lw_eq _ _ _ _ L (length os) (length os)) by (try lia; apply IN; lia). f_equal. apply Nat.eqb_refl.
  - intros i H. rewrite PE, <- P by lia. rewrite (lw_eq _ _ _ _ L (length os) i) by (try lia; apply IN; lia). f_equal. apply Nat.eqb_neq. lia.
Qed.
