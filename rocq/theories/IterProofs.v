(** * Proofs: iterating valid UTF-8 text *)
From Verif Require Import Prelude Utf8Model TextModel Utf8Spec Utf8Proofs LawfulProofs.
Require Import ZifyBool ZifyNat.

Lemma string_buffer_text cs : string_buffer (utf8_text cs) = [] ++ utf8_text (cs ++ [0]) ++ [].
Proof. unfold string_buffer. rewrite utf8_text_app, app_nil_r. reflexivity. Qed.
Lemma string_buffer_lawful cs : Forall codepoint31 cs ->
  lawful (utf8_ops (string_buffer (utf8_text cs))) (cs ++ [0])
         (upos 0 (cs ++ [0])) (uinside 0 (cs ++ [0])).
Proof.
  intros H. rewrite string_buffer_text. apply (utf8_lawful [] (cs ++ [0]) []).
  apply Forall_app. split; [assumption|]. constructor; [unfold codepoint31; lia|constructor].
Qed.
Lemma view_buffer_lawful before cs c after : Forall codepoint31 cs -> codepoint31 c ->
  lawful (utf8_ops (before ++ utf8_text cs ++ utf8_encode c ++ after)) (cs ++ [c])
         (upos (zlen before) (cs ++ [c])) (uinside (zlen before) (cs ++ [c])).
Proof.
  intros H Hc.
  replace (before ++ utf8_text cs ++ utf8_encode c ++ after)
    with (before ++ utf8_text (cs ++ [c]) ++ after)
    by (rewrite utf8_text_app; cbn [utf8_text flat_map]; rewrite app_nil_r, <- app_assoc; reflexivity).
  apply (utf8_lawful before (cs ++ [c]) after).
  apply Forall_app. split; [assumption|]. constructor; [assumption|constructor].
Qed.

Lemma upos_end base cs c : upos base (cs ++ [c]) (length cs) = base + zlen (utf8_text cs).
Proof. unfold upos. rewrite firstn_app, firstn_all, Nat.sub_diag, app_nil_r. reflexivity. Qed.
Lemma uinside_end base cs c : codepoint31 c ->
  uinside base (cs ++ [c]) (length cs) (base + zlen (utf8_text cs)).
Proof.
  intros Hc. unfold uinside. rewrite (upos_S _ _ _ c), upos_end.
  - destruct (utf8_encode_chunk c Hc) as (l & t & -> & _). zl.
  - rewrite nth_error_app2, Nat.sub_diag by lia. reflexivity.
Qed.
Lemma uinside_start base cs c : Forall codepoint31 cs -> codepoint31 c ->
  uinside base (cs ++ [c]) 0 base.
Proof.
  intros H Hc. unfold uinside. split; [rewrite upos_0; lia|].
  rewrite <- (upos_0 base (cs ++ [c])) at 1. apply upos_lt; [|lia|rewrite app_length; cbn; lia].
  apply Forall_app. split; [assumption|]. constructor; [assumption|constructor].
Qed.
Lemma sub_whole cs c : sub (cs ++ [c]) 0 (length cs) = cs.
Proof. exact (sub_all [] cs [c]). Qed.

(** C01 *)
Lemma forward_view before cs c after fuel :
  Forall codepoint31 cs -> codepoint31 c -> (length cs < fuel)%nat ->
  let mem := before ++ utf8_text cs ++ utf8_encode c ++ after in
  let b := zlen before in
  let e := zlen before + zlen (utf8_text cs) in
  iterate_codepoints fuel (utf8_ops mem) b e = Ok cs /\
  iterate_codepoints_for fuel (utf8_ops mem) b e = Ok cs.
Proof.
  intros H Hc Hf. cbv zeta. pose proof (view_buffer_lawful before cs c after H Hc) as L.
  pose proof (uinside_start (zlen before) cs c H Hc).
  pose proof (uinside_end (zlen before) cs c Hc).
  split.
  - rewrite (iterate_lawful _ _ _ _ L (length cs) 0 (length cs)); try assumption;
      [rewrite sub_whole; reflexivity|lia|rewrite app_length; cbn; lia].
  - rewrite (iterate_for_lawful _ _ _ _ L (length cs) 0 (length cs)); try assumption;
      [rewrite sub_whole; reflexivity|lia|rewrite app_length; cbn; lia].
Qed.
Lemma forward_string cs fuel :
  Forall codepoint31 cs -> (length cs < fuel)%nat ->
  let s := utf8_text cs in
  iterate_codepoints fuel (utf8_ops (string_buffer s)) 0 (zlen s) = Ok cs /\
  iterate_codepoints_for fuel (utf8_ops (string_buffer s)) 0 (zlen s) = Ok cs.
Proof.
  intros H Hf. pose proof (forward_view [] cs 0 [] fuel H ltac:(unfold codepoint31; lia) Hf) as F.
  exact F.
Qed.

(** C02 *)
Lemma backward_view before cs c after fuel :
  Forall codepoint31 cs -> codepoint31 c -> (length cs < fuel)%nat ->
  let mem := before ++ utf8_text cs ++ utf8_encode c ++ after in
  iterate_backwards fuel (utf8_ops mem) (zlen before + zlen (utf8_text cs)) (zlen before)
  = Ok (rev cs).
Proof.
  intros H Hc Hf. cbv zeta. pose proof (view_buffer_lawful before cs c after H Hc) as L.
  rewrite (iterate_backwards_lawful _ _ _ _ L (length cs) 0 (length cs)); try assumption.
  - rewrite sub_whole; reflexivity.
  - lia.
  - rewrite app_length; cbn; lia.
  - apply uinside_start; assumption.
  - apply uinside_end; assumption.
Qed.

(** C03 *)
Lemma inc_dec_inverse before c d after :
  codepoint31 c -> codepoint31 d ->
  let mem := before ++ utf8_encode c ++ utf8_encode d ++ after in
  let p := zlen before in
  let q := zlen before + zlen (utf8_encode c) in
  it_preinc mem p = Ok q /\ it_predec mem q = Ok p.
Proof.
  intros Hc Hd. cbv zeta.
  destruct (utf8_encode_chunk c Hc) as (lc & tc & Ec & Cc & _).
  destruct (utf8_encode_chunk d Hd) as (ld & td & Ed & Cd & _).
  rewrite Ec, Ed. split.
  - unfold it_preinc. rewrite <- (Z.add_0_r (zlen before)) at 1.
    cbn [app]. rewrite forward_chunk; [f_equal; zl|assumption|zl].
  - unfold it_predec.
    pose proof (decr_chunk before lc tc ld td after 0 Cc Cd ltac:(zl)) as D.
    rewrite <- D. f_equal.
    + cbn [app]. rewrite <- app_assoc. reflexivity.
    + zl.
Qed.

(** C04 *)
Lemma inside_codepoint before c after j :
  codepoint31 c -> 0 <= j < zlen (utf8_encode c) ->
  let mem := before ++ utf8_encode c ++ after in
  let start := zlen before in
  it_deref mem (start + j) = Ok (c, start) /\
  it_preinc mem (start + j) = Ok (start + zlen (utf8_encode c)) /\
  utf8_native_const_iterator mem (start + j) = Ok start.
Proof.
  intros Hc Hj. cbv zeta.
  destruct (utf8_encode_chunk c Hc) as (l & t & E & C & V). rewrite E in *. cbn [app].
  assert (Hj' : 0 <= j <= zlen t) by (rewrite zlen_cons in Hj; lia).
  split; [|split].
  - unfold it_deref. rewrite deref_chunk by assumption. rewrite V. reflexivity.
  - unfold it_preinc. rewrite forward_chunk by assumption. f_equal. zl.
  - unfold utf8_native_const_iterator. rewrite rewind_chunk by (try assumption; apply C). reflexivity.
Qed.
Lemma inside_codepoint_dec before c0 c after j :
  codepoint31 c0 -> codepoint31 c -> 0 <= j < zlen (utf8_encode c) ->
  let mem := before ++ utf8_encode c0 ++ utf8_encode c ++ after in
  it_predec mem (zlen before + zlen (utf8_encode c0) + j) = Ok (zlen before).
Proof.
  intros Hc0 Hc Hj. cbv zeta.
  destruct (utf8_encode_chunk c Hc) as (l & t & E & C & V). rewrite E in *.
  destruct (utf8_encode_chunk c0 Hc0) as (l0 & t0 & E0 & C0 & V0). rewrite E0 in *.
  assert (Hj' : 0 <= j <= zlen t) by (rewrite zlen_cons in Hj; lia).
  pose proof (decr_chunk before l0 t0 l t after j C0 C Hj') as D. unfold it_predec.
  rewrite <- D. f_equal.
  - cbn [app]. rewrite <- app_assoc. reflexivity.
  - zl.
Qed.

(** C05 *)
Lemma position_inside cs : Forall codepoint31 cs -> forall base p,
  base <= p < base + zlen (utf8_text cs) ->
  exists i, (i < length cs)%nat /\ uinside base cs i p.
Proof.
  induction cs as [|c cs IH]; intros H base p Hp.
  - cbn in Hp. lia.
  - inversion H as [|? ? Hc Hcs]; subst. change (utf8_text (c :: cs)) with (utf8_encode c ++ utf8_text cs) in Hp.
    rewrite zlen_app in Hp.
    destruct (Z.ltb_spec p (base + zlen (utf8_encode c))).
    + exists 0%nat. split; [cbn; lia|]. unfold uinside.
      rewrite (upos_S base (c :: cs) 0 c) by reflexivity. rewrite upos_0. lia.
    + destruct (IH Hcs (base + zlen (utf8_encode c)) p ltac:(lia)) as (i & Hi & Hin).
      exists (S i). split; [cbn; lia|].
      assert (U : forall k, upos base (c :: cs) (S k) = upos (base + zlen (utf8_encode c)) cs k).
      { intros k. unfold upos. cbn [firstn].
        change (utf8_text (c :: firstn k cs)) with (utf8_encode c ++ utf8_text (firstn k cs)).
        rewrite zlen_app. lia. }
      unfold uinside in *. rewrite !U. exact Hin.
Qed.

Lemma equality_same_codepoint cs i j p q :
  Forall codepoint31 cs ->
  let all := cs ++ [0] in
  let within k r := zlen (utf8_text (firstn k all)) <= r < zlen (utf8_text (firstn (S k) all)) in
  (i <= length cs)%nat -> (j <= length cs)%nat -> within i p -> within j q ->
  it_eq (string_buffer (utf8_text cs)) p q = Ok (Nat.eqb i j).
Proof.
  intros H all within Hi Hj Hp Hq.
  pose proof (string_buffer_lawful cs H) as L.
  apply (lw_eq _ _ _ _ L i j p q).
  - unfold all. rewrite app_length. cbn. lia.
  - unfold all. rewrite app_length. cbn. lia.
  - unfold uinside, upos. rewrite !Z.add_0_l. exact Hp.
  - unfold uinside, upos. rewrite !Z.add_0_l. exact Hq.
Qed.

Lemma equality_equivalence cs p q r :
  Forall codepoint31 cs ->
  let s := utf8_text cs in
  let mem := string_buffer s in
  0 <= p <= zlen s -> 0 <= q <= zlen s -> 0 <= r <= zlen s ->
  it_eq mem p p = Ok true /\
  it_eq mem p q = it_eq mem q p /\
  (it_eq mem p q = Ok true -> it_eq mem q r = Ok true -> it_eq mem p r = Ok true) /\
  (exists b, it_eq mem p q = Ok b /\ it_neq mem p q = Ok (negb b)).
Proof.
  intros H. cbv zeta. intros Hp Hq Hr. pose proof (string_buffer_lawful cs H) as L.
  assert (F : Forall codepoint31 (cs ++ [0])).
  { apply Forall_app. split; [assumption|]. constructor; [unfold codepoint31; lia|constructor]. }
  assert (T : zlen (utf8_text (cs ++ [0])) = zlen (utf8_text cs) + 1)
    by (rewrite utf8_text_app, zlen_app; reflexivity).
  destruct (position_inside _ F 0 p ltac:(lia)) as (ip & Hip & Ip).
  destruct (position_inside _ F 0 q ltac:(lia)) as (iq & Hiq & Iq).
  destruct (position_inside _ F 0 r ltac:(lia)) as (ir & Hir & Ir).
  pose proof (lw_eq _ _ _ _ L) as EQ. cbn [op_eq utf8_ops] in EQ.
  unfold it_neq.
  rewrite (EQ ip ip p p), (EQ ip iq p q), (EQ iq ip q p), (EQ iq ir q r), (EQ ip ir p r) by assumption.
  split; [rewrite Nat.eqb_refl; reflexivity|].
  split; [rewrite Nat.eqb_sym; reflexivity|].
  split.
  - intros A B. injection A as A. injection B as B. apply Nat.eqb_eq in A, B. subst.
    rewrite Nat.eqb_refl. reflexivity.
  - exists (Nat.eqb ip iq). split; reflexivity.
Qed.

(** C10: a buffer without terminator. *)
Lemma exact_view_reads_past cs fuel :
  Forall codepoint31 cs -> (length cs < fuel)%nat ->
  let s := utf8_text cs in
  iterate_codepoints fuel (utf8_ops s) 0 (zlen s) = UB OobRead.
Proof.
  intros H. cbv zeta.
  assert (G : forall n pre post, cs = pre ++ post -> length post = n -> forall fuel, (n < fuel)%nat ->
    iterate_codepoints fuel (utf8_ops (utf8_text cs)) (zlen (utf8_text pre)) (zlen (utf8_text cs)) = UB OobRead).
  { induction n as [|n IH]; intros pre post E Hn f Hf; (destruct f as [|f]; [lia|]); cbn [iterate_codepoints].
    - destruct post; [|discriminate]. rewrite app_nil_r in E. subst pre.
      unfold op_neq. cbn [op_eq utf8_ops]. unfold it_eq, rewind_to_start_of_codepoint.
      cbn [rewind_loop]. unfold rd at 1.
      destruct (Z.ltb_spec (zlen (utf8_text cs)) 0); [zl|].
      replace (nth_error (utf8_text cs) (Z.to_nat (zlen (utf8_text cs)))) with (@None Z).
      2: { symmetry. apply nth_error_None. zl. }
      reflexivity.
    - destruct post as [|c post]; [discriminate|].
      assert (Hc : codepoint31 c).
      { rewrite E in H. apply Forall_app in H. destruct H as [_ H]. inversion H; assumption. }
      destruct (utf8_encode_chunk c Hc) as (l & t & Ec & C & V).
      assert (EM : utf8_text cs = utf8_text pre ++ l :: t ++ utf8_text post).
      { rewrite E, utf8_text_app. change (utf8_text (c :: post)) with (utf8_encode c ++ utf8_text post).
        rewrite Ec. reflexivity. }
      assert (EP : zlen (utf8_text (pre ++ [c])) = zlen (utf8_text pre) + 1 + zlen t).
      { rewrite utf8_text_app, zlen_app. cbn [utf8_text flat_map]. rewrite app_nil_r, Ec, zlen_cons. lia. }
      unfold op_neq. cbn [op_eq utf8_ops op_postinc op_deref]. unfold it_postinc.
      assert (L0 : zlen (utf8_text cs) = zlen (utf8_text pre) + 1 + zlen t + zlen (utf8_text post))
        by (rewrite EM; zl).
      replace (it_eq (utf8_text cs) (zlen (utf8_text pre)) (zlen (utf8_text cs))) with (@Ok bool false).
      2: { rewrite L0. rewrite EM. rewrite <- (Z.add_0_r (zlen (utf8_text pre))) at 1.
           rewrite eq_chunk by (try assumption; zl). f_equal. zl. }
      cbn [bind negb]. unfold it_preinc, it_deref.
      replace (forward_one_codepoint (utf8_text cs) (zlen (utf8_text pre))) with (Ok (zlen (utf8_text (pre ++ [c])))).
      2: { rewrite EM, EP. rewrite <- (Z.add_0_r (zlen (utf8_text pre))) at 2.
           rewrite forward_chunk by (try assumption; zl). reflexivity. }
      cbn [bind].
      replace (current_codepoint (utf8_text cs) (zlen (utf8_text pre))) with (Ok (c, zlen (utf8_text pre))).
      2: { rewrite EM. rewrite <- (Z.add_0_r (zlen (utf8_text pre))) at 2.
           rewrite deref_chunk by (try assumption; zl). rewrite V. reflexivity. }
      cbn [bind]. rewrite (IH (pre ++ [c]) post).
      + reflexivity.
      + rewrite <- app_assoc. exact E.
      + cbn in Hn. lia.
      + lia. }
  intros Hf. apply (G (length cs) [] cs eq_refl eq_refl fuel Hf).
Qed.

(** C03 *)
Lemma postfix_prefix mem p :
  (forall old q, it_postinc mem p = Ok (old, q) <-> old = p /\ it_preinc mem p = Ok q) /\
  (forall old q, it_postdec mem p = Ok (old, q) <-> old = p /\ it_predec mem p = Ok q) /\
  (forall u, it_postinc mem p = UB u <-> it_preinc mem p = UB u) /\
  (forall u, it_postdec mem p = UB u <-> it_predec mem p = UB u).
Proof.
  unfold it_postinc, it_postdec.
  destruct (it_preinc mem p) as [a|u1|], (it_predec mem p) as [a'|u2|]; cbn [bind];
    repeat split; intros; try discriminate; try congruence;
    match goal with H : _ /\ _ |- _ => destruct H; congruence end.
Qed.

(** C11 *)
Lemma octet_classification b : is_byte b ->
  codepoint_size b = Ok (announced_len b) /\
  (is_7bit_character b = true <-> b < 128) /\
  (is_codepoint_continuation b = true <-> continuation_octet b) /\
  (is_codepoint_start b = true <-> 192 <= b).
Proof.
  intros H. rewrite codepoint_size_spec, is_7bit_spec, is_continuation_spec, is_start_spec by assumption.
  split; [reflexivity|]. unfold is_cont, continuation_octet. lia.
Qed.

Lemma encode_shape c : codepoint31 c ->
  exists lead tail, utf8_encode c = lead :: tail /\ announced_len lead = zlen (utf8_encode c) /\
    0 <= lead < 254 /\ ~ continuation_octet lead /\ Forall continuation_octet tail.
Proof.
  intros H. destruct (utf8_encode_chunk c H) as (l & t & E & C & _). exists l, t.
  rewrite E. destruct C as [C1 C2 C3 C4 C5]. split; [reflexivity|]. split; [zl|].
  unfold is_byte in C1. split; [lia|]. split; [|assumption].
  unfold continuation_octet, is_cont in *. lia.
Qed.

(** The octet after a view need only not be a continuation octet. *)
Lemma forward_view_any_octet before cs x after fuel :
  Forall codepoint31 cs -> is_byte x -> ~ continuation_octet x -> (length cs < fuel)%nat ->
  let mem := before ++ utf8_text cs ++ x :: after in
  iterate_codepoints fuel (utf8_ops mem) (zlen before) (zlen before + zlen (utf8_text cs)) = Ok cs.
Proof.
  intros H Hx Nx Hf mem.
  assert (G : forall n pre post, cs = pre ++ post -> length post = n -> forall fuel, (n < fuel)%nat ->
    iterate_codepoints fuel (utf8_ops mem) (zlen before + zlen (utf8_text pre)) (zlen before + zlen (utf8_text cs))
    = Ok post).
  { induction n as [|n IH]; intros pre post E Hn f Hf'; (destruct f as [|f]; [lia|]); cbn [iterate_codepoints].
    - destruct post; [|discriminate]. rewrite app_nil_r in E. subst pre.
      unfold op_neq. cbn [op_eq utf8_ops]. unfold it_eq.
      assert (EM : mem = (before ++ utf8_text cs) ++ x :: [] ++ after) by (unfold mem; rewrite <- app_assoc; reflexivity).
      rewrite EM. rewrite <- (zlen_app before (utf8_text cs)).
      replace (rewind_to_start_of_codepoint _ _) with (@Ok (bool * Z) (false, zlen (before ++ utf8_text cs))).
      2: { symmetry. rewrite <- (Z.add_0_r (zlen (before ++ utf8_text cs))) at 1.
           apply (rewind_chunk (before ++ utf8_text cs) x [] after 0 Hx); [|constructor|zl].
           unfold is_cont, continuation_octet in *. lia. }
      cbn [bind]. rewrite rd_app. cbn [bind]. rewrite codepoint_size_spec by assumption. cbn [bind].
      pose proof (announced_len_range x). destruct (Z.to_nat (announced_len x)) eqn:D; [lia|].
      cbn [eq_loop]. rewrite Z.eqb_refl. reflexivity.
    - destruct post as [|c post]; [discriminate|].
      assert (Hc : codepoint31 c).
      { rewrite E in H. apply Forall_app in H. destruct H as [_ H]. inversion H; assumption. }
      destruct (utf8_encode_chunk c Hc) as (l & t & Ec & C & V).
      assert (EM : mem = (before ++ utf8_text pre) ++ l :: t ++ (utf8_text post ++ x :: after)).
      { unfold mem. rewrite E, utf8_text_app. change (utf8_text (c :: post)) with (utf8_encode c ++ utf8_text post).
        rewrite Ec. rewrite <- !app_assoc. cbn [app]. rewrite <- ?app_assoc. reflexivity. }
      assert (EP : zlen (utf8_text (pre ++ [c])) = zlen (utf8_text pre) + 1 + zlen t).
      { rewrite utf8_text_app, zlen_app. cbn [utf8_text flat_map]. rewrite app_nil_r, Ec, zlen_cons. lia. }
      assert (L0 : zlen (utf8_text cs) = zlen (utf8_text pre) + 1 + zlen t + zlen (utf8_text post)).
      { rewrite E, utf8_text_app. change (utf8_text (c :: post)) with (utf8_encode c ++ utf8_text post).
        rewrite Ec. zl. }
      unfold op_neq. cbn [op_eq utf8_ops op_postinc op_deref]. unfold it_postinc.
      replace (it_eq mem _ _) with (@Ok bool false).
      2: { rewrite EM, <- (zlen_app before (utf8_text pre)).
           rewrite <- (Z.add_0_r (zlen (before ++ utf8_text pre))).
           rewrite eq_chunk by (try assumption; zl). f_equal. rewrite L0. zl. }
      cbn [bind negb]. unfold it_preinc, it_deref.
      replace (forward_one_codepoint mem _) with (Ok (zlen before + zlen (utf8_text (pre ++ [c])))).
      2: { rewrite EM, EP, <- (zlen_app before (utf8_text pre)).
           rewrite <- (Z.add_0_r (zlen (before ++ utf8_text pre))).
           rewrite forward_chunk by (try assumption; zl). f_equal. zl. }
      cbn [bind].
      replace (current_codepoint mem _) with (Ok (c, zlen before + zlen (utf8_text pre))).
      2: { rewrite EM, <- (zlen_app before (utf8_text pre)).
           rewrite <- (Z.add_0_r (zlen (before ++ utf8_text pre))) at 2.
           rewrite deref_chunk by (try assumption; zl). rewrite V. reflexivity. }
      cbn [bind]. rewrite (IH (pre ++ [c]) post).
      + reflexivity.
      + rewrite <- app_assoc. exact E.
      + cbn in Hn. lia.
      + lia. }
  intros. specialize (G (length cs) [] cs eq_refl eq_refl fuel Hf). cbn in G. rewrite Z.add_0_r in G. exact G.
Qed.
