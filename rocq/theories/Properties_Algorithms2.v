(** * Property C126: more standard algorithms on codepoint iterators

    Reading guide.  [std_mismatch] etc. (Algo2Model.v) are the algorithms of libstdc++.
    [a_text], [part]: Properties_Algorithms.v.  [common_beginning], [first_repeated],
    [without_repetitions]: Algo2Spec.v. *)
From Verif Require Import Prelude Utf8Model TextModel Utf8Spec TextSpec AlgoModel AlgoSpec Algo2Model Algo2Spec LawfulProofs GraphemeText AlgoProofs Algo2Proofs UtfOrder
  Properties_Algorithms.
Require Import ZifyBool ZifyNat.

(** std::mismatch of two texts, each in either encoding, finds where the codepoints first differ
    or one text ends. *)
Theorem C126_mismatch : forall ops b e cs pos ops' b' e' cs' pos' i j k l fuel, a_text ops b e cs pos -> a_text ops' b' e' cs' pos' ->
  (i <= j <= length cs)%nat -> (k <= l <= length cs')%nat -> (j - i < fuel)%nat ->
  exists m, std_mismatch fuel ops ops' (pos i) (pos j) (pos' k) (pos' l) = Ok (pos (i + m)%nat, pos' (k + m)%nat) /\
    common_beginning (part cs i j) (part cs' k l) m.
Proof.
  intros ops b e cs pos ops' b' e' cs' pos' i j k l fuel H H' Hij Hk Hf.
  destruct (a_text_in _ _ _ _ _ H) as (c & p & inside & T & P). destruct (a_text_in _ _ _ _ _ H') as (c' & p' & inside' & T' & P').
  rewrite (P i), (P j), (P' k), (P' l) by lia.
  destruct (mismatch_at _ _ _ _ _ _ (text_walks T) (text_walks T') (j - i) i j k l fuel) as (m & R & C); try rewrite snoc_length; try lia.
  rewrite !part_sub in C by lia. exists m. split; [|exact C]. rewrite R. destruct C as (A & B & _). unfold part in A, B.
  rewrite firstn_length, skipn_length in A, B. rewrite P, P' by lia. reflexivity.
Qed.
Print Assumptions C126_mismatch.
Theorem C126_common_beginning_unique : forall x y k k', common_beginning x y k -> common_beginning x y k' -> k = k'.
Proof. intros x y k k'. apply common_beginning_unique. Qed.
Print Assumptions C126_common_beginning_unique.

Lemma text_app x y : utf8_text (x ++ y) = utf8_text x ++ utf8_text y.
Proof. apply flat_map_app. Qed.
(** Comparing the octets of two UTF-8 texts finds the same place up to less than a codepoint:
    not before the codepoint where they differ, nor behind it in either text; exactly there if one of the texts
    ends. *)
Theorem C126_octets : forall x y k m, Forall codepoint31 x -> Forall codepoint31 y ->
  common_beginning x y k -> common_beginning (utf8_text x) (utf8_text y) m ->
  (length (utf8_text (firstn k x)) <= m)%nat /\
  ((k < length x)%nat -> (k < length y)%nat -> (m < length (utf8_text (firstn (S k) x)))%nat /\ (m < length (utf8_text (firstn (S k) y)))%nat) /\
  (k = length x \/ k = length y -> m = length (utf8_text (firstn k x))).
Proof.
  assert (L : forall p x y m, common_beginning (utf8_text (p ++ x)) (utf8_text (p ++ y)) m -> (length (utf8_text p) <= m)%nat).
  { intros p x y m (_ & _ & _ & D). destruct (Nat.le_gt_cases (length (utf8_text p)) m) as [H|H]; [exact H|exfalso].
    destruct (nth_lt_some (utf8_text p) m H) as [c E]. apply (D c c); [| |reflexivity]; rewrite text_app, nth_error_app1 by lia; exact E. }
  assert (U : forall p a b x y m, codepoint31 a -> codepoint31 b -> a <> b -> common_beginning (utf8_text (p ++ a :: x)) (utf8_text (p ++ b :: y)) m ->
    (m < length (utf8_text (p ++ [a])))%nat).
  { intros p a b x y m A B N (M & _ & E & _). destruct (Nat.le_gt_cases (length (utf8_text (p ++ [a]))) m) as [H|H]; [exfalso|exact H]. apply N.
    apply (f_equal (firstn (length (utf8_text (p ++ [a]))))) in E. rewrite !firstn_firstn, !Nat.min_l in E by lia.
    replace (p ++ a :: x) with ((p ++ [a]) ++ x) in E by (rewrite <- app_assoc; reflexivity). rewrite (text_app (p ++ [a]) x) in E.
    rewrite firstn_app, Nat.sub_diag, firstn_all in E. cbn [firstn] in E. rewrite app_nil_r in E.
    pose proof (firstn_skipn (length (utf8_text (p ++ [a]))) (utf8_text (p ++ b :: y))) as S. rewrite <- E in S.
    rewrite !text_app, <- app_assoc in S. apply app_inv_head in S. change (utf8_text (b :: y)) with (utf8_encode b ++ utf8_text y) in S.
    unfold utf8_text at 1 in S. cbn [flat_map] in S. rewrite app_nil_r in S. exact (proj1 (encode_prefix_free _ _ _ _ A B S)). }
  intros x y k m FX FY (A & B & E & D) M.
  assert (X : x = firstn k x ++ skipn k x) by (symmetry; apply firstn_skipn).
  assert (Y : y = firstn k x ++ skipn k y) by (rewrite E; symmetry; apply firstn_skipn).
  assert (LP : (length (utf8_text (firstn k x)) <= m)%nat) by (eapply L; rewrite <- X, <- Y; exact M).
  split; [exact LP|]. split.
  - intros KX KY. destruct (nth_lt_some x k KX) as [a Ea]. destruct (nth_lt_some y k KY) as [b Eb].
    assert (N : a <> b) by (exact (D a b Ea Eb)).
    rewrite (skipn_cons_nth _ _ _ Ea) in X. rewrite (skipn_cons_nth _ _ _ Eb) in Y.
    assert (CA : codepoint31 a) by (rewrite Forall_forall in FX; apply FX; eapply nth_error_In; exact Ea).
    assert (CB : codepoint31 b) by (rewrite Forall_forall in FY; apply FY; eapply nth_error_In; exact Eb).
    rewrite (firstn_S_nth _ _ _ Ea), (firstn_S_nth _ _ _ Eb), <- E. split.
    + eapply (U _ a b); [exact CA|exact CB|exact N|]. rewrite <- X, <- Y. exact M.
    + destruct M as (M1 & M2 & M3 & M4). eapply (U _ b a); [exact CB|exact CA|congruence|]. rewrite <- X, <- Y.
      split; [exact M2|]. split; [exact M1|]. split; [congruence|]. intros c d C D'. intros ->. exact (M4 d d D' C eq_refl).
  - intros [-> | ->]; destruct M as (M1 & M2 & _).
    + rewrite firstn_all in *. lia.
    + rewrite E, firstn_all in *. lia.
Qed.
Print Assumptions C126_octets.

(** std::adjacent_find finds the first codepoint that is repeated. *)
Theorem C126_adjacent_find : forall ops b e cs pos i j fuel, a_text ops b e cs pos ->
  (i <= j <= length cs)%nat -> (j - i < fuel)%nat ->
  exists k, std_adjacent_find fuel ops (pos i) (pos j) = Ok (pos (i + k)%nat) /\ first_repeated (part cs i j) k.
Proof.
  intros ops b e cs pos i j fuel H Hij Hf. destruct (a_text_in _ _ _ _ _ H) as (c & p & inside & T & P).
  rewrite (P i), (P j) by lia. destruct (adjacent_at _ _ _ (text_walks T) i j fuel) as (k & R & F); try rewrite snoc_length; try lia.
  rewrite part_sub in F by lia. exists k. split; [|exact F]. rewrite R.
  assert (k <= length (part cs i j))%nat by (destruct F as [_ [F| ->]]; [apply repeated_lt in F|]; lia).
  unfold part in H0. rewrite firstn_length, skipn_length in H0. rewrite P by lia. reflexivity.
Qed.
Print Assumptions C126_adjacent_find.
Theorem C126_first_repeated_unique : forall t k k', first_repeated t k -> first_repeated t k' -> k = k'.
Proof. exact first_repeated_unique. Qed.
Print Assumptions C126_first_repeated_unique.

(** std::copy_if appends the codepoints that have the property, in their order; so std::copy appends all. *)
Theorem C126_copy_if : forall ops b e cs pos pred i j fuel out, a_text ops b e cs pos ->
  (i <= j <= length cs)%nat -> (j - i < fuel)%nat ->
  std_copy_if fuel ops pred (pos i) (pos j) out = Ok (out ++ List.filter pred (part cs i j)).
Proof.
  intros ops b e cs pos pred i j fuel out H Hij Hf. destruct (a_text_in _ _ _ _ _ H) as (c & p & inside & T & P).
  rewrite !P by lia. rewrite <- (part_sub cs c) by lia. apply (copy_if_at _ _ _ (text_walks T) pred (j - i)); try rewrite snoc_length; lia.
Qed.
Print Assumptions C126_copy_if.
Theorem C126_copy : forall ops b e cs pos i j fuel out, a_text ops b e cs pos ->
  (i <= j <= length cs)%nat -> (j - i < fuel)%nat ->
  std_copy_if fuel ops (fun _ => true) (pos i) (pos j) out = Ok (out ++ part cs i j).
Proof.
  intros. rewrite (C126_copy_if ops b e cs) by assumption. do 2 f_equal.
  induction (part cs i j) as [|c t IH]; [reflexivity|]. cbn. congruence.
Qed.
Print Assumptions C126_copy.

(** std::unique_copy appends them with every run of one codepoint reduced to one. *)
Theorem C126_unique_copy : forall ops b e cs pos i j fuel out, a_text ops b e cs pos ->
  (i <= j <= length cs)%nat -> (j - i < fuel)%nat ->
  exists u, std_unique_copy fuel ops (pos i) (pos j) out = Ok (out ++ u) /\ without_repetitions (part cs i j) u.
Proof.
  intros ops b e cs pos i j fuel out H Hij Hf. destruct (a_text_in _ _ _ _ _ H) as (c & p & inside & T & P).
  rewrite !P by lia. rewrite <- (part_sub cs c) by lia. apply (unique_copy_at _ _ _ (text_walks T)); try rewrite snoc_length; lia.
Qed.
Print Assumptions C126_unique_copy.
Theorem C126_without_repetitions_unique : forall t u u', without_repetitions t u -> without_repetitions t u' -> u = u'.
Proof. intros t u u' H H'. exact (without_repetitions_unique t u H u' H'). Qed.
Print Assumptions C126_without_repetitions_unique.

Example C126_example :
  let mem t := string_buffer (utf8_text t) in
  (* "aé€" and "aéz"; "a€€z"; the codepoints above 7F of it *)
  std_mismatch 9 (utf8_ops (mem [0x61; 0xE9; 0x20AC])) (utf8_ops (mem [0x61; 0xE9; 0x7A])) 0 6 0 4 = Ok (3, 3) /\
  std_mismatch 9 (utf8_ops (mem [0x61; 0xE9])) (utf32_ops [0x61; 0xE9; 0x7A]) 0 3 0 3 = Ok (3, 2) /\
  std_adjacent_find 9 (utf8_ops (mem [0x61; 0x20AC; 0x20AC; 0x7A])) 0 8 = Ok 1 /\
  std_copy_if 9 (utf8_ops (mem [0x61; 0x20AC; 0x20AC; 0x7A])) (fun c => 0x7F <? c) 0 8 [] = Ok [0x20AC; 0x20AC] /\
  std_unique_copy 9 (utf8_ops (mem [0x61; 0x20AC; 0x20AC; 0x7A])) 0 8 [] = Ok [0x61; 0x20AC; 0x7A].
Proof. repeat split; vm_compute; reflexivity. Qed.
