(** * Laws of codepoint iterators over well-formed text

    Both instances of [cp_ops] (UTF-8 octets, UTF-32 ints) behave like an index
    into the list of codepoints in memory.  Everything generic is proved from
    these laws. *)
From Verif Require Import Prelude Utf8Model TextModel Utf8Spec Utf8Proofs.
Require Import ZifyBool ZifyNat.

Record lawful (ops : cp_ops) (cs : list Z) (pos : nat -> Z) (inside : nat -> Z -> Prop)
  : Prop := {
  lw_pos : forall i, (i < length cs)%nat -> inside i (pos i);
  lw_deref : forall i p c, nth_error cs i = Some c -> inside i p ->
             op_deref ops p = Ok (c, pos i);
  lw_inc : forall i p, (S i < length cs)%nat -> inside i p -> op_inc ops p = Ok (pos (S i));
  lw_postinc : forall i p, (S i < length cs)%nat -> inside i p -> op_postinc ops p = Ok (p, pos (S i));
  lw_dec : forall i p, (S i < length cs)%nat -> inside (S i) p -> op_dec ops p = Ok (pos i);
  lw_eq : forall i j p q, (i < length cs)%nat -> (j < length cs)%nat ->
          inside i p -> inside j q -> op_eq ops p q = Ok (Nat.eqb i j)
}.

Lemma lw_step ops cs pos inside : lawful ops cs pos inside ->
  forall i p, (S i < length cs)%nat -> inside i p -> op_step ops p = Ok (pos (S i)).
Proof. intros L i p Hi Hp. unfold op_step. rewrite (lw_postinc _ _ _ _ L i p Hi Hp). reflexivity. Qed.

(** Codepoints with index in [i, j). *)
Definition sub (cs : list Z) (i j : nat) : list Z := firstn (j - i) (skipn i cs).

Lemma sub_nil cs i : sub cs i i = [].
Proof. unfold sub. rewrite Nat.sub_diag. reflexivity. Qed.
Lemma skipn_cons_nth {A} (l : list A) i x :
  nth_error l i = Some x -> skipn i l = x :: skipn (S i) l.
Proof.
  revert i. induction l as [|y l IH]; intros [|i] H; try discriminate.
  - cbn in H. injection H as ->. reflexivity.
  - cbn in H. apply IH in H. cbn [skipn]. exact H.
Qed.
Lemma firstn_S_nth {A} (l : list A) i x :
  nth_error l i = Some x -> firstn (S i) l = firstn i l ++ [x].
Proof.
  revert i. induction l as [|y l IH]; intros [|i] H; try discriminate.
  - cbn in H. injection H as ->. reflexivity.
  - cbn in H. apply IH in H. cbn [firstn app]. f_equal. exact H.
Qed.
Lemma nth_split_at {A} (l : list A) i x :
  nth_error l i = Some x -> l = firstn i l ++ x :: skipn (S i) l.
Proof. intros H. rewrite <- (skipn_cons_nth _ _ _ H). symmetry. apply firstn_skipn. Qed.
Lemma nth_error_skipn {A} (l : list A) : forall i k, nth_error (skipn i l) k = nth_error l (i + k).
Proof.
  induction l as [|x l IH]; intros [|i] k; cbn [skipn Nat.add nth_error]; try reflexivity.
  - destruct k; reflexivity.
  - apply IH.
Qed.
Lemma nth_error_firstn {A} (l : list A) : forall n k, (k < n)%nat ->
  nth_error (firstn n l) k = nth_error l k.
Proof.
  induction l as [|x l IH]; intros n k H; destruct n as [|n]; try lia.
  - reflexivity.
  - destruct k as [|k]; [reflexivity|]. cbn. apply IH. lia.
Qed.
Lemma skipn_skipn' {A} (l : list A) : forall i j, skipn j (skipn i l) = skipn (i + j) l.
Proof.
  induction l as [|x l IH]; intros [|i] j; cbn [skipn Nat.add]; try reflexivity.
  - destruct j; reflexivity.
  - apply IH.
Qed.
Lemma nth_lt_some {A} (l : list A) i : (i < length l)%nat -> exists x, nth_error l i = Some x.
Proof.
  intros H. destruct (nth_error l i) eqn:E; [eauto|]. apply nth_error_None in E. lia.
Qed.
Lemma sub_cons cs i j c : (i < j)%nat -> nth_error cs i = Some c ->
  sub cs i j = c :: sub cs (S i) j.
Proof.
  intros H E. unfold sub. rewrite (skipn_cons_nth _ _ _ E).
  replace (j - i)%nat with (S (j - S i)) by lia. reflexivity.
Qed.
Lemma sub_snoc cs i j c : (i <= j)%nat -> nth_error cs j = Some c ->
  sub cs i (S j) = sub cs i j ++ [c].
Proof.
  intros H E. unfold sub. replace (S j - i)%nat with (S (j - i)) by lia.
  apply firstn_S_nth. rewrite nth_error_skipn. rewrite <- E. f_equal. lia.
Qed.
Lemma sub_length cs i j : (i <= j <= length cs)%nat -> length (sub cs i j) = (j - i)%nat.
Proof. intros H. unfold sub. rewrite firstn_length, skipn_length. lia. Qed.
Lemma sub_app cs i j k : (i <= j <= k)%nat -> sub cs i k = sub cs i j ++ sub cs j k.
Proof.
  intros H. unfold sub.
  replace (skipn j cs) with (skipn (j - i) (skipn i cs))
    by (rewrite skipn_skipn'; f_equal; lia).
  generalize (skipn i cs). intros l.
  replace (k - i)%nat with ((j - i) + (k - j))%nat by lia.
  revert l. generalize (k - j)%nat. generalize (j - i)%nat. clear.
  induction n as [|n IH]; intros m l; [reflexivity|].
  destruct l as [|x l]; [cbn; rewrite firstn_nil; reflexivity|].
  cbn [Nat.add firstn skipn app]. f_equal. apply IH.
Qed.
Lemma sub_all (pre mid post : list Z) :
  sub (pre ++ mid ++ post) (length pre) (length pre + length mid) = mid.
Proof.
  unfold sub. rewrite skipn_app, skipn_all, Nat.sub_diag. cbn [app skipn].
  replace (length pre + length mid - length pre)%nat with (length mid) by lia.
  rewrite firstn_app, firstn_all, Nat.sub_diag, app_nil_r. reflexivity.
Qed.
Lemma nth_error_sub cs i j k : (i + k < j)%nat -> nth_error (sub cs i j) k = nth_error cs (i + k).
Proof.
  intros H. unfold sub. rewrite nth_error_firstn by lia. apply nth_error_skipn.
Qed.

(** ** UTF-8 *)

Lemma utf8_text_app a b : utf8_text (a ++ b) = utf8_text a ++ utf8_text b.
Proof. apply flat_map_app. Qed.

(** Octet position of codepoint [i] when the text starts at [base]. *)
Definition upos (base : Z) (cs : list Z) (i : nat) : Z := base + zlen (utf8_text (firstn i cs)).
Definition uinside (base : Z) (cs : list Z) (i : nat) (p : Z) : Prop :=
  upos base cs i <= p < upos base cs (S i).

Lemma upos_0 base cs : upos base cs 0 = base.
Proof. unfold upos. cbn. lia. Qed.
Lemma upos_S base cs i c : nth_error cs i = Some c ->
  upos base cs (S i) = upos base cs i + zlen (utf8_encode c).
Proof.
  intros H. unfold upos. rewrite (firstn_S_nth _ _ _ H), utf8_text_app.
  cbn [utf8_text flat_map]. rewrite app_nil_r. zl.
Qed.
Lemma upos_le base cs i j : (i <= j)%nat -> upos base cs i <= upos base cs j.
Proof.
  intros H. induction H as [|j H IH]; [lia|].
  destruct (nth_error cs j) as [c|] eqn:E.
  - rewrite (upos_S _ _ _ _ E). pose proof (zlen_nonneg (utf8_encode c)). lia.
  - apply nth_error_None in E. unfold upos in *. rewrite (firstn_all2 (n:=S j)) by lia.
    rewrite (firstn_all2 (n:=j)) in IH by lia. lia.
Qed.

Lemma utf8_locate pre cs post i c p :
  Forall codepoint31 cs -> nth_error cs i = Some c ->
  uinside (zlen pre) cs i p ->
  exists A lead tail B j,
    pre ++ utf8_text cs ++ post = A ++ lead :: tail ++ B /\
    A = pre ++ utf8_text (firstn i cs) /\
    B = utf8_text (skipn (S i) cs) ++ post /\
    chunk lead tail /\ chunk_value lead tail = c /\ utf8_encode c = lead :: tail /\
    zlen A = upos (zlen pre) cs i /\
    upos (zlen pre) cs (S i) = zlen A + 1 + zlen tail /\
    p = zlen A + j /\ 0 <= j <= zlen tail.
Proof.
  intros HF E [Hp1 Hp2].
  assert (HC : codepoint31 c) by (rewrite Forall_forall in HF; apply HF; eapply nth_error_In; eauto).
  destruct (utf8_encode_chunk c HC) as (lead & tail & Henc & Hch & Hval).
  rewrite (upos_S _ _ _ _ E) in Hp2.
  exists (pre ++ utf8_text (firstn i cs)), lead, tail, (utf8_text (skipn (S i) cs) ++ post), (p - upos (zlen pre) cs i).
  assert (LA : zlen (pre ++ utf8_text (firstn i cs)) = upos (zlen pre) cs i) by (unfold upos; apply zlen_app).
  repeat split; try assumption; try lia.
  - rewrite (nth_split_at _ _ _ E) at 1. rewrite utf8_text_app.
    change (utf8_text (c :: skipn (S i) cs)) with (utf8_encode c ++ utf8_text (skipn (S i) cs)).
    rewrite Henc. rewrite <- !app_assoc. cbn [app]. rewrite <- ?app_assoc. reflexivity.
  - apply Hch.
  - apply Hch.
  - apply Hch.
  - apply Hch.
  - apply Hch.
  - apply Hch.
  - rewrite (upos_S _ _ _ _ E), Henc, LA. zl.
  - rewrite Henc in Hp2. zl.
Qed.

Lemma upos_lt base cs i j : Forall codepoint31 cs -> (i < j)%nat -> (i < length cs)%nat ->
  upos base cs i < upos base cs j.
Proof.
  intros HF H Hi. destruct (nth_lt_some cs i Hi) as [c E].
  pose proof (upos_le base cs (S i) j ltac:(lia)). rewrite (upos_S _ _ _ _ E) in H0.
  assert (HC : codepoint31 c) by (rewrite Forall_forall in HF; apply HF; eapply nth_error_In; eauto).
  destruct (utf8_encode_chunk c HC) as (lead & tail & Henc & _). rewrite Henc in H0. zl.
Qed.

Lemma utf8_lawful pre cs post : Forall codepoint31 cs ->
  lawful (utf8_ops (pre ++ utf8_text cs ++ post)) cs (upos (zlen pre) cs) (uinside (zlen pre) cs).
Proof.
  intros HF. constructor.
  - intros i Hi. split; [lia|]. apply upos_lt; try assumption. lia.
  - intros i p c E Hin.
    destruct (utf8_locate pre cs post i c p HF E Hin)
      as (A & lead & tail & B & j & EM & _ & _ & Hch & Hv & _ & LA & _ & -> & Hj).
    cbn [op_deref utf8_ops]. unfold it_deref. rewrite EM, deref_chunk by assumption.
    rewrite Hv, LA. reflexivity.
  - intros i p Hi Hin. destruct (nth_lt_some cs i ltac:(lia)) as [c E].
    destruct (utf8_locate pre cs post i c p HF E Hin)
      as (A & lead & tail & B & j & EM & _ & _ & Hch & Hv & _ & LA & LS & -> & Hj).
    cbn [op_inc utf8_ops]. unfold it_preinc. rewrite EM, forward_chunk by assumption.
    rewrite LS. reflexivity.
  - intros i p Hi Hin. destruct (nth_lt_some cs i ltac:(lia)) as [c E].
    destruct (utf8_locate pre cs post i c p HF E Hin)
      as (A & lead & tail & B & j & EM & _ & _ & Hch & Hv & _ & LA & LS & -> & Hj).
    cbn [op_postinc utf8_ops]. unfold it_postinc, it_preinc. rewrite EM, forward_chunk by assumption.
    cbn [bind]. rewrite LS. reflexivity.
  - intros i p Hi Hin. destruct (nth_lt_some cs (S i) Hi) as [c E].
    destruct (nth_lt_some cs i ltac:(lia)) as [c0 E0].
    destruct (utf8_locate pre cs post (S i) c p HF E Hin)
      as (A & lead & tail & B & j & EM & EA & _ & Hch & Hv & _ & LA & LS & -> & Hj).
    assert (HC : codepoint31 c0) by (rewrite Forall_forall in HF; apply HF; eapply nth_error_In; eauto).
    destruct (utf8_encode_chunk c0 HC) as (lead0 & tail0 & Henc0 & Hch0 & _).
    assert (EA' : A = (pre ++ utf8_text (firstn i cs)) ++ lead0 :: tail0).
    { rewrite EA, (firstn_S_nth _ _ _ E0), utf8_text_app. cbn [utf8_text flat_map].
      rewrite app_nil_r, Henc0, app_assoc. reflexivity. }
    cbn [op_dec utf8_ops]. unfold it_predec. rewrite EM, EA'.
    rewrite decr_chunk by assumption. unfold upos. rewrite zlen_app. reflexivity.
  - intros i j p q Hi Hj Hp Hq. destruct (nth_lt_some cs i Hi) as [c E].
    destruct (utf8_locate pre cs post i c p HF E Hp)
      as (A & lead & tail & B & jj & EM & _ & _ & Hch & Hv & _ & LA & LS & -> & Hjj).
    cbn [op_eq utf8_ops]. rewrite EM, eq_chunk by assumption. f_equal.
    rewrite <- LS, LA. destruct Hq as [Hq1 Hq2].
    destruct (Nat.eqb_spec i j) as [->|Hne]; [lia|].
    destruct (Nat.lt_ge_cases i j).
    + pose proof (upos_le (zlen pre) cs (S i) j ltac:(lia)). lia.
    + pose proof (upos_le (zlen pre) cs (S j) i ltac:(lia)). lia.
Qed.

(** ** UTF-32 *)
Lemma utf32_lawful pre cs post :
  lawful (utf32_ops (pre ++ cs ++ post)) cs
    (fun i => zlen pre + Z.of_nat i) (fun i p => p = zlen pre + Z.of_nat i).
Proof.
  constructor; cbn.
  - reflexivity.
  - intros i p c E ->.
    rewrite (rd_at _ (pre ++ firstn i cs) c (skipn (S i) cs ++ post)).
    + reflexivity.
    + rewrite (nth_split_at _ _ _ E) at 1. rewrite <- !app_assoc. reflexivity.
    + assert (i < length cs)%nat by (apply nth_error_Some; congruence).
      rewrite zlen_app. unfold zlen. rewrite firstn_length. lia.
  - intros i p Hi ->. rewrite padd_ok by zl. f_equal. lia.
  - intros i p Hi ->. rewrite padd_ok by zl. cbn [bind]. f_equal. f_equal. lia.
  - intros i p Hi ->. rewrite padd_ok by zl. f_equal. lia.
  - intros i j p q Hi Hj -> ->. f_equal. lia.
Qed.

(** ** Client loops over lawful iterators *)
Lemma op_neq_lawful ops cs pos inside i j p q : lawful ops cs pos inside ->
  (i < length cs)%nat -> (j < length cs)%nat -> inside i p -> inside j q ->
  op_neq ops p q = Ok (negb (Nat.eqb i j)).
Proof.
  intros L Hi Hj Hp Hq. unfold op_neq. rewrite (lw_eq _ _ _ _ L i j p q Hi Hj Hp Hq). reflexivity.
Qed.

Lemma iterate_lawful ops cs pos inside : lawful ops cs pos inside ->
  forall n i j p q fuel, (j - i = n)%nat -> (i <= j < length cs)%nat -> inside i p -> inside j q ->
  (n < fuel)%nat ->
  iterate_codepoints fuel ops p q = Ok (sub cs i j).
Proof.
  intros L. induction n as [|n IH]; intros i j p q fuel Hn Hij Hp Hq Hf;
    (destruct fuel as [|fuel]; [lia|]); cbn [iterate_codepoints];
    rewrite (op_neq_lawful _ _ _ _ i j p q L) by (assumption || lia); cbn [bind].
  - replace j with i by lia. rewrite Nat.eqb_refl, sub_nil. reflexivity.
  - destruct (Nat.eqb_spec i j); [lia|]. cbn [negb].
    rewrite (lw_postinc _ _ _ _ L i p) by (assumption || lia). cbn [bind].
    destruct (nth_lt_some cs i ltac:(lia)) as [c E].
    rewrite (lw_deref _ _ _ _ L i p c E Hp). cbn [bind].
    rewrite (IH (S i) j (pos (S i)) q fuel) by (try assumption; try lia; apply (lw_pos _ _ _ _ L); lia).
    cbn [bind]. rewrite (sub_cons cs i j c) by (assumption || lia). reflexivity.
Qed.

Lemma iterate_for_lawful ops cs pos inside : lawful ops cs pos inside ->
  forall n i j p q fuel, (j - i = n)%nat -> (i <= j < length cs)%nat -> inside i p -> inside j q ->
  (n < fuel)%nat ->
  iterate_codepoints_for fuel ops p q = Ok (sub cs i j).
Proof.
  intros L. induction n as [|n IH]; intros i j p q fuel Hn Hij Hp Hq Hf;
    (destruct fuel as [|fuel]; [lia|]); cbn [iterate_codepoints_for];
    rewrite (op_neq_lawful _ _ _ _ i j p q L) by (assumption || lia); cbn [bind].
  - replace j with i by lia. rewrite Nat.eqb_refl, sub_nil. reflexivity.
  - destruct (Nat.eqb_spec i j); [lia|]. cbn [negb].
    destruct (nth_lt_some cs i ltac:(lia)) as [c E].
    rewrite (lw_deref _ _ _ _ L i p c E Hp). cbn [bind].
    rewrite (lw_step _ _ _ _ L i (pos i)) by (try lia; apply (lw_pos _ _ _ _ L); lia). cbn [bind].
    rewrite (IH (S i) j (pos (S i)) q fuel) by (try assumption; try lia; apply (lw_pos _ _ _ _ L); lia).
    cbn [bind]. rewrite (sub_cons cs i j c) by (assumption || lia). reflexivity.
Qed.

Lemma iterate_backwards_lawful ops cs pos inside : lawful ops cs pos inside ->
  forall n i j p q fuel, (j - i = n)%nat -> (i <= j < length cs)%nat -> inside i p -> inside j q ->
  (n < fuel)%nat ->
  iterate_backwards fuel ops q p = Ok (rev (sub cs i j)).
Proof.
  intros L. induction n as [|n IH]; intros i j p q fuel Hn Hij Hp Hq Hf;
    (destruct fuel as [|fuel]; [lia|]); cbn [iterate_backwards];
    rewrite (op_neq_lawful _ _ _ _ j i q p L) by (assumption || lia); cbn [bind].
  - replace j with i by lia. rewrite Nat.eqb_refl, sub_nil. reflexivity.
  - destruct (Nat.eqb_spec j i); [lia|]. cbn [negb].
    destruct j as [|j]; [lia|].
    rewrite (lw_dec _ _ _ _ L j q) by (assumption || lia). cbn [bind].
    destruct (nth_lt_some cs j ltac:(lia)) as [c E].
    assert (Hpj : inside j (pos j)) by (apply (lw_pos _ _ _ _ L); lia).
    rewrite (lw_deref _ _ _ _ L j (pos j) c E Hpj). cbn [bind].
    rewrite (IH i j p (pos j) fuel) by (try assumption; lia).
    cbn [bind]. rewrite (sub_snoc cs i j c) by (assumption || lia).
    rewrite rev_app_distr. reflexivity.
Qed.
