(** * Property C119: the reverse iterators of a string

    Reading guide.  [reversed], [utf8_reversed mem], [utf32_reversed mem] (ReverseModel.v) are the operations of
    std::reverse_iterator (of libstdc++) over the codepoint iterators; a reverse iterator is given by its base().  [a_text]:
    Properties_Algorithms.v; [pos i] is where codepoint number [i] starts, so [pos (length cs)] is the end.
    [iterate_bases]: the loop [for (r = rbegin; r != rend; ++r) { it = r.base(); --it; use *it; }]. *)
From Verif Require Import Prelude Utf8Model TextModel Utf8Spec TextSpec AlgoModel AlgoSpec LawfulProofs GraphemeText AlgoProofs ReverseModel ReverseProofs
  Properties_Algorithms.
Require Import ZifyBool ZifyNat.

(** ** Both encodings: ++, -- and == of reverse iterators go backwards, forwards and compare, *)
Theorem C119_steps : forall t ops b e cs pos, a_text ops b e cs pos ->
  (forall i, (i < length cs)%nat -> op_inc (reversed t ops) (pos (S i)) = Ok (pos i) /\ op_dec (reversed t ops) (pos i) = Ok (pos (S i))) /\
  (forall i j, (i <= length cs)%nat -> (j <= length cs)%nat -> op_eq (reversed t ops) (pos i) (pos j) = Ok (i =? j)%nat).
Proof.
  intros t ops b e cs pos H. destruct (a_text_in _ _ _ _ _ H) as (c & p & inside & T & P). pose proof (text_walks T) as W. split.
  - intros i Hi. rewrite !P by lia. cbn [op_inc op_dec reversed]. split; [apply (wk_dec _ _ _ W)|apply (wk_inc _ _ _ W)]; rewrite snoc_length; lia.
  - intros i j Hi Hj. rewrite !P by lia. cbn [op_eq reversed]. apply (wk_eq _ _ _ W); rewrite snoc_length; lia.
Qed.
Print Assumptions C119_steps.
(** the number of steps from the last to the first is the number of codepoints, *)
Theorem C119_distance : forall t ops b e cs pos fuel, a_text ops b e cs pos -> (length cs < fuel)%nat -> zlen cs <= int_max ->
  std_distance fuel (reversed t ops) e b = Ok (zlen cs).
Proof.
  intros t ops b e cs pos fuel H Hf Hl. destruct (a_text_in _ _ _ _ _ H) as (c & p & inside & T & P).
  rewrite (ti_begin _ _ _ _ _ _ _ T), (ti_end _ _ _ _ _ _ _ T). unfold std_distance, zlen in *.
  exact (reversed_steps _ _ _ _ (text_walks T) t (length cs) 0%nat fuel 0 ltac:(lia) Hf ltac:(unfold is_int, int_min, int_max; lia) Hl).
Qed.
Print Assumptions C119_distance.
(** and a loop that reads through base() yields the codepoints from the last to the first. *)
Theorem C119_loop_over_bases : forall t ops b e cs pos fuel, a_text ops b e cs pos -> (length cs < fuel)%nat ->
  iterate_bases fuel (reversed t ops) ops e b = Ok (rev cs).
Proof.
  intros t ops b e cs pos fuel H Hf. destruct (a_text_in _ _ _ _ _ H) as (c & p & inside & T & P).
  rewrite (ti_begin _ _ _ _ _ _ _ T), (ti_end _ _ _ _ _ _ _ T).
  rewrite (bases_loop _ _ _ _ (text_walks T) t (length cs) fuel) by lia. rewrite firstn_all. reflexivity.
Qed.
Print Assumptions C119_loop_over_bases.
Example C119_bases_example : (* "aé€😀" *)
  let cs := [0x61; 0xE9; 0x20AC; 0x1F600] in
  let mem := string_buffer (utf8_text cs) in
  a_text (utf8_ops mem) 0 10 cs (fun i => zlen (utf8_text (firstn i cs))) /\
  iterate_bases 9 (utf8_reversed mem) (utf8_ops mem) 10 0 = Ok [0x1F600; 0x20AC; 0xE9; 0x61] /\
  std_distance 9 (utf8_reversed mem) 10 0 = Ok 4.
Proof.
  cbv zeta. split; [left; apply (utf8_string [0x61; 0xE9; 0x20AC; 0x1F600]); repeat constructor; unfold codepoint31; lia|].
  split; vm_compute; reflexivity.
Qed.

(** ** utf32ne: [cs] lies anywhere in memory, with or without something after it.  The reverse iterators are iterators over
    the reversed text. *)
Lemma utf32_walks before cs after c : walks (utf32_ops (before ++ cs ++ after)) (cs ++ [c]) (fun i => zlen before + Z.of_nat i).
Proof.
  assert (L : zlen (before ++ cs ++ after) = zlen before + zlen cs + zlen after) by (unfold zlen; rewrite !app_length; lia). unfold zlen in L.
  constructor; rewrite snoc_length; unfold zlen; cbn [op_deref op_inc op_dec op_eq utf32_ops]; intros.
  - unfold rd. destruct (Z.ltb_spec (Z.of_nat (length before) + Z.of_nat i) 0); [lia|].
    rewrite nth_error_app2 by lia. rewrite nth_error_app1 in H0 by lia. rewrite nth_error_app1 by lia.
    replace (Z.to_nat (Z.of_nat (length before) + Z.of_nat i) - length before)%nat with i by lia. rewrite H0. reflexivity.
  - unfold padd, zlen. destruct (_ && _) eqn:E; [f_equal|]; lia.
  - unfold padd, zlen. destruct (_ && _) eqn:E; [f_equal|]; lia.
  - f_equal. lia.
Qed.
Lemma utf32_reversed_walks before cs after x :
  walks (utf32_reversed (before ++ cs ++ after)) (rev cs ++ [x]) (fun i => zlen before + zlen cs - Z.of_nat i).
Proof.
  pose proof (reversed_walks _ _ _ _ (utf32_walks before cs after 0) x) as R. unfold rpos in R.
  assert (Lr : length (rev cs ++ [x]) = S (length cs)) by (rewrite app_length, rev_length; cbn; lia). unfold zlen in *.
  assert (E : forall i, (i <= length cs)%nat -> Z.of_nat (length before) + Z.of_nat (length cs) - Z.of_nat i = Z.of_nat (length before) + Z.of_nat (length cs - i)) by (intros; lia).
  destruct R as [R1 R2 R3 R4]. rewrite Lr in *. constructor; rewrite Lr; intros; rewrite !E by lia; auto.
Qed.
Lemma rev_part cs x : sub (rev cs ++ [x]) 0 (length cs) = rev cs.
Proof. unfold sub. cbn [skipn]. rewrite Nat.sub_0_r, firstn_app, rev_length, Nat.sub_diag, <- (rev_length cs), firstn_all. apply app_nil_r. Qed.

Theorem C119_utf32_loops : forall before cs after fuel, (length cs < fuel)%nat ->
  let rops := utf32_reversed (before ++ cs ++ after) in
  let rbegin := zlen before + zlen cs in
  let rend := zlen before in
  iterate_codepoints fuel rops rbegin rend = Ok (rev cs) /\
  iterate_codepoints_for fuel rops rbegin rend = Ok (rev cs).
Proof.
  intros before cs after fuel Hf. cbv zeta.
  pose proof (reversed_loops _ _ _ _ (utf32_walks before cs after 0) 0 (length cs) 0%nat fuel ltac:(lia) ltac:(lia) Hf) as Q.
  rewrite rev_part in Q. unfold rpos in Q. rewrite Nat.sub_0_r, Nat.sub_diag, Z.add_0_r in Q. exact Q.
Qed.
Print Assumptions C119_utf32_loops.
(** std::find_if from the end: the last codepoint with the property is just before base(). *)
Theorem C119_utf32_find_last : forall before cs after pred fuel, (length cs < fuel)%nat ->
  let rops := utf32_reversed (before ++ cs ++ after) in
  let rbegin := zlen before + zlen cs in
  let rend := zlen before in
  exists k, std_find_if fuel rops pred rbegin rend = Ok (zlen before + Z.of_nat k) /\ (k <= length cs)%nat /\
    (forall i x, nth_error cs i = Some x -> (k <= i)%nat -> pred x = false) /\
    (k = O \/ exists x, nth_error cs (k - 1) = Some x /\ pred x = true).
Proof.
  intros before cs after pred fuel Hf. cbv zeta. pose proof (utf32_reversed_walks before cs after 0) as R.
  assert (Lr : length (rev cs ++ [0]) = S (length cs)) by (rewrite app_length, rev_length; cbn; lia).
  pose proof (find_at _ _ _ R pred (length cs) 0%nat (length cs) fuel ltac:(lia) ltac:(lia) Hf) as Q. cbv beta in Q.
  unfold zlen in *. replace (Z.of_nat (length before) + Z.of_nat (length cs) - Z.of_nat (length cs)) with (Z.of_nat (length before)) in Q by lia.
  replace (Z.of_nat (length before) + Z.of_nat (length cs) - Z.of_nat 0) with (Z.of_nat (length before) + Z.of_nat (length cs)) in Q by lia.
  rewrite rev_part in Q. pose proof (find_index_spec pred (rev cs)) as (F & G). pose proof (find_index_le pred (rev cs)) as LE.
  rewrite rev_length in *. set (n := find_index pred (rev cs)) in *. exists (length cs - n)%nat. rewrite Q. split; [f_equal; lia|]. split; [lia|].
  assert (N : forall i, (i < length cs)%nat -> nth_error (rev cs) (length cs - S i) = nth_error cs i).
  { intros i Hi. pose proof (nth_error_rev_end cs 0 (length cs - S i) ltac:(lia)) as E. rewrite nth_error_app1 in E by (rewrite rev_length; lia).
    rewrite E. f_equal. lia. }
  split.
  - intros i x Hx Hi. assert (i < length cs)%nat by (apply nth_error_Some; congruence). apply (F (length cs - S i)%nat x); [|lia]. rewrite N by lia. exact Hx.
  - destruct G as [(x & X & Y)|G]; [|left; lia].
    assert (n < length cs)%nat by (rewrite <- (rev_length cs); apply nth_error_Some; congruence). right. exists x. split; [|exact Y].
    rewrite <- N by lia. rewrite <- X. f_equal. lia.
Qed.
Print Assumptions C119_utf32_find_last.
(** std::equal against the reverse iterators: is the text a palindrome? *)
Theorem C119_utf32_palindrome : forall before cs after fuel, (length cs < fuel)%nat ->
  let mem := before ++ cs ++ after in
  exists r, std_equal fuel (utf32_ops mem) (utf32_reversed mem) (zlen before) (zlen before + zlen cs) (zlen before + zlen cs) = Ok r /\
    (r = true <-> cs = rev cs).
Proof.
  intros before cs after fuel Hf mem. unfold mem.
  destruct (equal_at _ _ _ _ _ _ (utf32_walks before cs after 0) (utf32_reversed_walks before cs after 0) (length cs) 0%nat (length cs) 0%nat fuel) as (r & E & I);
    try (rewrite ?snoc_length, ?rev_length; lia).
  cbv beta in E. rewrite Z.add_0_r, Z.sub_0_r in E. exists r. split; [exact E|]. rewrite I. rewrite Nat.add_0_l, rev_part.
  rewrite (part_sub cs 0 0 (length cs)) by lia. rewrite part_all. reflexivity.
Qed.
Print Assumptions C119_utf32_palindrome.
(** std::search with reverse iterators of both: the last occurrence ends at the result's base(). *)
Theorem C119_utf32_search_last : forall before cs after before' cs' after' fuel, (length cs < fuel)%nat ->
  let search := std_search fuel (utf32_reversed (before ++ cs ++ after)) (utf32_reversed (before' ++ cs' ++ after'))
    (zlen before + zlen cs) (zlen before) (zlen before' + zlen cs') (zlen before') in
  (exists k, search = Ok (zlen before + Z.of_nat k + zlen cs') /\ occurs_at cs cs' k /\ forall k', (k < k')%nat -> ~ occurs_at cs cs' k') \/
  (search = Ok (zlen before) /\ forall k, ~ occurs_at cs cs' k).
Proof.
  intros before cs after before' cs' after' fuel Hf. cbv zeta.
  pose proof (search_at _ _ _ _ _ _ (utf32_reversed_walks before cs after 0) (utf32_reversed_walks before' cs' after' 0)
    0%nat (length cs) 0%nat (length cs') fuel) as Q. rewrite !snoc_length, !rev_length in Q. specialize (Q ltac:(lia) ltac:(lia) ltac:(lia)).
  cbv beta in Q. rewrite !Z.sub_0_r, !rev_part in Q. unfold zlen in *.
  replace (Z.of_nat (length before) + Z.of_nat (length cs) - Z.of_nat (length cs)) with (Z.of_nat (length before)) in Q by lia.
  replace (Z.of_nat (length before') + Z.of_nat (length cs') - Z.of_nat (length cs')) with (Z.of_nat (length before')) in Q by lia.
  rewrite Q. rewrite Nat.add_0_l.
  assert (R : forall k, occurs_at cs cs' k -> (k + length cs' <= length cs)%nat /\ occurs_at (rev cs) (rev cs') (length cs - (k + length cs'))).
  { intros k (x & y & E & Lx). assert (length cs = k + length cs' + length y)%nat by (rewrite E, !app_length; lia). split; [lia|].
    exists (rev y), (rev x). rewrite E, !rev_app_distr, rev_length, !app_length, <- app_assoc. split; [reflexivity|lia]. }
  destruct (search_index_spec (rev cs) (rev cs')) as [[(x & y & E & Lx) F]|[E N]].
  - left. apply (f_equal (@rev Z)) in E. rewrite rev_involutive, !rev_app_distr, rev_involutive, <- app_assoc in E.
    set (n := search_index (rev cs) (rev cs')) in *. assert (LE : (length cs = length (rev y) + length cs' + n)%nat).
    { rewrite E at 1. rewrite !app_length, !rev_length. lia. }
    exists (length (rev y)). split; [f_equal; lia|]. split; [exists (rev y), (rev x); split; [exact E|reflexivity]|].
    intros k' Hk' O. destruct (R k' O) as (Lk & O'). apply (F (length cs - (k' + length cs'))%nat); [lia|exact O'].
  - right. rewrite E, rev_length. split; [f_equal; lia|]. intros k O. destruct (R k O) as (_ & O'). exact (N _ O').
Qed.
Print Assumptions C119_utf32_search_last.
(** Counting is the same in both directions, and std::reverse_copy of the reverse is the text. *)
Theorem C119_utf32_count_and_copy : forall before cs after pred out fuel, (length cs < fuel)%nat -> zlen cs <= int_max ->
  let rops := utf32_reversed (before ++ cs ++ after) in
  let rbegin := zlen before + zlen cs in
  let rend := zlen before in
  std_count_if fuel rops pred rbegin rend = Ok (zlen (List.filter pred cs)) /\
  std_reverse_copy fuel rops rbegin rend out = Ok (out ++ cs).
Proof.
  intros before cs after pred out fuel Hf Hl. cbv zeta. pose proof (utf32_reversed_walks before cs after 0) as R.
  assert (Lr : length (rev cs ++ [0]) = S (length cs)) by (rewrite app_length, rev_length; cbn; lia).
  assert (FL : forall l : list Z, zlen (List.filter pred (rev l)) = zlen (List.filter pred l)).
  { intros l. unfold zlen. induction l as [|a l IH]; [reflexivity|]. cbn [rev List.filter].
    rewrite List.filter_app, app_length. cbn [List.filter]. destruct (pred a); cbn [length]; lia. }
  assert (FB : zlen (List.filter pred cs) <= zlen cs).
  { unfold zlen. clear. induction cs as [|a l IH]; cbn [List.filter length]; [lia|]. destruct (pred a); cbn [length]; lia. }
  pose proof (count_at _ _ _ R pred (length cs) 0%nat (length cs) fuel 0 ltac:(lia) ltac:(lia) Hf ltac:(lia)) as Q.
  pose proof (reverse_copy_at _ _ _ R (length cs) 0%nat (length cs) fuel out ltac:(lia) ltac:(lia) Hf) as Q2.
  cbv beta in Q, Q2. rewrite rev_part in Q, Q2. rewrite FL in Q. specialize (Q ltac:(lia)). rewrite rev_involutive in Q2. rewrite Z.sub_0_r in Q, Q2.
  unfold std_count_if, zlen in *.
  replace (Z.of_nat (length before) + Z.of_nat (length cs) - Z.of_nat (length cs)) with (Z.of_nat (length before)) in Q, Q2 by lia.
  split; assumption.
Qed.
Print Assumptions C119_utf32_count_and_copy.
(** Writing through a reverse iterator replaces the codepoint just before its base(). *)
Theorem C119_utf32_write : forall before x after c,
  utf32_reverse_write (before ++ x :: after) (zlen before + 1) c = Ok (before ++ c :: after).
Proof.
  intros before x after c. unfold utf32_reverse_write. cbn [op_dec utf32_ops]. unfold padd, wr.
  assert (L : zlen (before ++ x :: after) = zlen before + 1 + zlen after) by (unfold zlen; rewrite app_length; cbn [length]; lia).
  rewrite L. replace (zlen before + 1 + -1) with (zlen before) by lia.
  destruct ((0 <=? zlen before) && (zlen before <=? zlen before + 1 + zlen after)) eqn:E; [|unfold zlen in *; lia]. cbn [bind]. rewrite ?L.
  destruct ((0 <=? zlen before) && (zlen before <? zlen before + 1 + zlen after)) eqn:E2; [|unfold zlen in *; lia]. f_equal.
  unfold zlen. rewrite Nat2Z.id. clear. induction before as [|y b IH]; cbn [length app upd]; [reflexivity|]. f_equal. exact IH.
Qed.
Print Assumptions C119_utf32_write.
Example C119_utf32_example : (* "xabcb" in front of "c": the last "b" is at 4, and "bc" occurs last at 2 (only within the string) *)
  let mem := [0x78; 0x61; 0x62; 0x63; 0x62; 0x63] in
  iterate_codepoints 9 (utf32_reversed mem) 5 0 = Ok [0x62; 0x63; 0x62; 0x61; 0x78] /\
  std_find_if 9 (utf32_reversed mem) (fun c => c =? 0x62) 5 0 = Ok 5 /\
  std_search 9 (utf32_reversed mem) (utf32_reversed [0x62; 0x63; 0]) 5 0 2 0 = Ok 4 /\
  std_equal 9 (utf32_ops mem) (utf32_reversed mem) 2 5 5 = Ok true /\
  std_equal 9 (utf32_ops mem) (utf32_reversed mem) 1 5 5 = Ok false /\
  utf32_reverse_write mem 5 0x7A = Ok [0x78; 0x61; 0x62; 0x63; 0x7A; 0x63].
Proof. repeat split; vm_compute; reflexivity. Qed.

(** ** UTF-8: the codepoint cannot be read through a reverse iterator: its operator* returns a reference to an object that is
    gone, whatever the text. *)
Theorem C119_utf8_dereference_refuted : forall mem b e cs pos fuel, a_text (utf8_ops mem) b e cs pos -> cs <> [] -> (0 < fuel)%nat ->
  (forall i, (i < length cs)%nat -> op_deref (utf8_reversed mem) (pos (S i)) = UB OobRead) /\
  iterate_codepoints fuel (utf8_reversed mem) e b = UB OobRead /\
  iterate_codepoints_for fuel (utf8_reversed mem) e b = UB OobRead.
Proof.
  intros mem b e cs pos fuel H N Hf. destruct (a_text_in _ _ _ _ _ H) as (c & p & inside & T & P). split.
  - intros i Hi. rewrite P by lia. exact (dead_deref _ _ _ _ (text_walks T) i Hi).
  - rewrite (ti_begin _ _ _ _ _ _ _ T), (ti_end _ _ _ _ _ _ _ T).
    destruct (dead_loops _ _ _ _ (text_walks T) fuel Hf) as (A & B). destruct cs; [congruence|]. cbn [length Nat.eqb] in *.
    split; [exact A|exact B].
Qed.
Print Assumptions C119_utf8_dereference_refuted.
(** An empty text is not read. *)
Theorem C119_utf8_empty : forall mem b e pos fuel, a_text (utf8_ops mem) b e [] pos -> (0 < fuel)%nat ->
  iterate_codepoints fuel (utf8_reversed mem) e b = Ok [] /\ iterate_codepoints_for fuel (utf8_reversed mem) e b = Ok [].
Proof.
  intros mem b e pos fuel H Hf. destruct (a_text_in _ _ _ _ _ H) as (c & p & inside & T & P).
  rewrite (ti_begin _ _ _ _ _ _ _ T), (ti_end _ _ _ _ _ _ _ T). exact (dead_loops _ _ _ _ (text_walks T) fuel Hf).
Qed.
Print Assumptions C119_utf8_empty.
Example C119_utf8_example : (* "é" *)
  let mem := string_buffer (utf8_text [0xE9]) in
  a_text (utf8_ops mem) 0 2 [0xE9] (fun i => zlen (utf8_text (firstn i [0xE9]))) /\
  iterate_codepoints 3 (utf8_reversed mem) 2 0 = UB OobRead /\ iterate_bases 3 (utf8_reversed mem) (utf8_ops mem) 2 0 = Ok [0xE9].
Proof.
  cbv zeta. split; [left; apply (utf8_string [0xE9]); repeat constructor; unfold codepoint31; lia|]. split; vm_compute; reflexivity.
Qed.
