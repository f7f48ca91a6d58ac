(** * What the std::sort of the GNU C++ library does

    For any comparison [comp a b = Ok (k a <? k b)] by an integer key.  The only facts
    used outside are [std_sort_spec] (no undefined behaviour, a sorted permutation) and
    [std_sort_small] (at most 16 elements: a sequence of exchanges of adjacent elements
    that are strictly out of order, so equal keys keep their order). *)
From Coq Require Import Permutation Sorted.
From Verif Require Import Prelude DataTables PropsModel StdSortModel.
Require Import ZifyBool ZifyNat.

(** ** Arrays *)
Definition get (m : list Z) (i : Z) : Z := nth (Z.to_nat i) m 0.
Definition put (m : list Z) (i v : Z) : list Z := upd m (Z.to_nat i) v.

Lemma upd_length l : forall n v, length (upd l n v) = length l.
Proof. induction l as [|x l IH]; intros [|n] v; cbn; try reflexivity. rewrite IH. reflexivity. Qed.
Lemma zlen_put m i v : zlen (put m i v) = zlen m.
Proof. unfold zlen, put. rewrite upd_length. reflexivity. Qed.
Lemma nth_upd l : forall n v j, (n < length l)%nat -> nth j (upd l n v) 0 = if (n =? j)%nat then v else nth j l 0.
Proof.
  induction l as [|x l IH]; intros n v j H; cbn in H; [lia|].
  destruct n as [|n], j as [|j]; cbn; try reflexivity. apply IH. lia.
Qed.
Lemma get_put m i v j : 0 <= i < zlen m -> 0 <= j -> get (put m i v) j = if i =? j then v else get m j.
Proof.
  unfold zlen, get, put. intros H J. rewrite nth_upd by lia.
  destruct (Nat.eqb_spec (Z.to_nat i) (Z.to_nat j)), (Z.eqb_spec i j); try reflexivity; lia.
Qed.
Lemma get_put_same m i v : 0 <= i < zlen m -> get (put m i v) i = v.
Proof. intros H. rewrite get_put by lia. rewrite Z.eqb_refl. reflexivity. Qed.
Lemma get_put_other m i v j : 0 <= i < zlen m -> 0 <= j -> i <> j -> get (put m i v) j = get m j.
Proof. intros H J N. rewrite get_put by lia. destruct (Z.eqb_spec i j); [lia|reflexivity]. Qed.
Lemma get_ext m m' : zlen m = zlen m' -> (forall i, 0 <= i < zlen m -> get m i = get m' i) -> m = m'.
Proof.
  unfold zlen, get. intros L H. apply nth_ext with (d := 0) (d' := 0); [lia|].
  intros n N. specialize (H (Z.of_nat n)). rewrite Nat2Z.id in H. apply H. lia.
Qed.
Lemma put_get m i : 0 <= i < zlen m -> put m i (get m i) = m.
Proof.
  intros H. apply get_ext; rewrite zlen_put; [reflexivity|]. intros j J. rewrite get_put by lia.
  destruct (Z.eqb_spec i j); [subst|]; reflexivity.
Qed.
Lemma put_put m i v w : 0 <= i < zlen m -> put (put m i v) i w = put m i w.
Proof.
  intros H. apply get_ext; rewrite !zlen_put; [reflexivity|]. intros j J. rewrite !get_put by (rewrite ?zlen_put; lia).
  destruct (Z.eqb_spec i j); reflexivity.
Qed.
Lemma rd_ok m p : 0 <= p < zlen m -> rd m p = Ok (get m p).
Proof.
  unfold zlen, rd, get. intros H. destruct (Z.ltb_spec p 0); [lia|].
  rewrite (nth_error_nth' m 0) by lia. reflexivity.
Qed.
Lemma wr_ok m p v : 0 <= p < zlen m -> wr m p v = Ok (put m p v).
Proof. unfold wr, put. intros H. destruct (Z.leb_spec 0 p), (Z.ltb_spec p (zlen m)); try lia. reflexivity. Qed.
Lemma padd_ok m p d : 0 <= p + d <= zlen m -> padd m p d = Ok (p + d).
Proof. unfold padd. intros H. destruct (Z.leb_spec 0 (p + d)), (Z.leb_spec (p + d) (zlen m)); try lia. reflexivity. Qed.

(** ** Exchanges *)
Definition swap (m : list Z) (i j : Z) : list Z := put (put m i (get m j)) j (get m i).
Lemma zlen_swap m i j : zlen (swap m i j) = zlen m.
Proof. unfold swap. rewrite !zlen_put. reflexivity. Qed.
Lemma get_swap m i j x : 0 <= i < zlen m -> 0 <= j < zlen m -> 0 <= x ->
  get (swap m i j) x = if x =? j then get m i else if x =? i then get m j else get m x.
Proof.
  intros I J X. unfold swap. rewrite !get_put by (rewrite ?zlen_put; lia).
  destruct (Z.eqb_spec j x), (Z.eqb_spec x j), (Z.eqb_spec i x), (Z.eqb_spec x i); try lia; reflexivity.
Qed.
Lemma upd_app l x y v : upd (l ++ x :: y) (length l) v = l ++ v :: y.
Proof. induction l as [|a l IH]; cbn; [reflexivity|]. rewrite IH. reflexivity. Qed.
Lemma swap_lt_perm m i j : 0 <= i < j -> j < zlen m -> Permutation m (swap m i j).
Proof.
  intros I J. unfold zlen in J.
  destruct (nth_split m 0 (n := Z.to_nat i)) as (l1 & l2 & E1 & L1); [lia|].
  destruct (nth_split l2 0 (n := Z.to_nat (j - i - 1))) as (l3 & l4 & E2 & L3).
  { apply (f_equal (@length Z)) in E1. rewrite app_length in E1. cbn in E1. lia. }
  fold (get m i) in E1.
  assert (G : get m j = nth (Z.to_nat (j - i - 1)) l2 0).
  { unfold get. rewrite E1. rewrite app_nth2 by lia. replace (Z.to_nat j - length l1)%nat with (S (Z.to_nat (j - i - 1))) by lia. reflexivity. }
  rewrite <- G in E2. set (a := get m i) in *. set (b := get m j) in *.
  assert (S : swap m i j = l1 ++ b :: l3 ++ a :: l4).
  { unfold swap, put. fold a b. rewrite E1. replace (Z.to_nat i) with (length l1) by lia. rewrite upd_app, E2.
    replace (l1 ++ b :: l3 ++ b :: l4) with ((l1 ++ b :: l3) ++ b :: l4) by (rewrite <- app_assoc; reflexivity).
    replace (Z.to_nat j) with (length (l1 ++ b :: l3)) by (rewrite app_length; cbn; lia). rewrite upd_app, <- app_assoc. reflexivity. }
  rewrite S, E1, E2. apply Permutation_app_head.
  rewrite <- !Permutation_middle. apply perm_swap.
Qed.
Lemma swap_sym m i j : 0 <= i < zlen m -> 0 <= j < zlen m -> swap m i j = swap m j i.
Proof.
  intros I J. apply get_ext; rewrite !zlen_swap; [reflexivity|]. intros x X. rewrite !get_swap by lia.
  destruct (Z.eqb_spec x j), (Z.eqb_spec x i); subst; reflexivity.
Qed.
Lemma swap_same m i : 0 <= i < zlen m -> swap m i i = m.
Proof. intros I. unfold swap. rewrite put_put by assumption. apply put_get. assumption. Qed.
Lemma swap_perm m i j : 0 <= i < zlen m -> 0 <= j < zlen m -> Permutation m (swap m i j).
Proof.
  intros I J. destruct (Z.lt_trichotomy i j) as [L|[E|L]].
  - apply swap_lt_perm; lia.
  - subst. rewrite swap_same by assumption. apply Permutation_refl.
  - rewrite swap_sym by assumption. apply swap_lt_perm; lia.
Qed.
(** Moving the content of [j] into the hole [i]. *)
Lemma hole_swap m i j v : 0 <= i < zlen m -> 0 <= j < zlen m -> i <> j ->
  put (put m i (get m j)) j v = swap (put m i v) i j.
Proof.
  intros I J N. apply get_ext; rewrite ?zlen_swap, !zlen_put; [reflexivity|]. intros x X.
  rewrite get_swap by (rewrite ?zlen_put; lia). rewrite !get_put by (rewrite ?zlen_put; lia).
  repeat match goal with |- context[?a =? ?b] => destruct (Z.eqb_spec a b) end; try lia; reflexivity.
Qed.

(** Exchanges of positions in [lo, hi). *)
Inductive shuf (lo hi : Z) (m : list Z) : list Z -> Prop :=
| shuf_refl : shuf lo hi m m
| shuf_step m' i j : shuf lo hi m m' -> lo <= i < hi -> lo <= j < hi -> shuf lo hi m (swap m' i j).
Lemma shuf_trans lo hi m m' m'' : shuf lo hi m m' -> shuf lo hi m' m'' -> shuf lo hi m m''.
Proof. intros A B. induction B as [|m3 i j B IH I J]; [assumption|]. apply shuf_step; assumption. Qed.
Lemma shuf_one lo hi m i j : lo <= i < hi -> lo <= j < hi -> shuf lo hi m (swap m i j).
Proof. intros I J. apply shuf_step; [constructor|assumption..]. Qed.
Lemma shuf_wide lo hi lo' hi' m m' : lo' <= lo -> hi <= hi' -> shuf lo hi m m' -> shuf lo' hi' m m'.
Proof. intros L H S. induction S; [constructor|apply shuf_step; [assumption|lia..]]. Qed.
Lemma shuf_len lo hi m m' : shuf lo hi m m' -> zlen m' = zlen m.
Proof. intros S. induction S; [reflexivity|]. rewrite zlen_swap. assumption. Qed.
Lemma shuf_perm lo hi m m' : 0 <= lo -> hi <= zlen m -> shuf lo hi m m' -> Permutation m m'.
Proof.
  intros L H S. induction S as [|m' i j S IH I J]; [apply Permutation_refl|].
  eapply Permutation_trans; [exact IH|]. apply shuf_len in S. apply swap_perm; lia.
Qed.
Lemma shuf_out lo hi m m' x : 0 <= lo -> hi <= zlen m -> shuf lo hi m m' -> 0 <= x -> x < lo \/ hi <= x -> get m' x = get m x.
Proof.
  intros L H S X O. induction S as [|m' i j S IH I J]; [reflexivity|]. apply shuf_len in S. rewrite get_swap by lia.
  destruct (Z.eqb_spec x j), (Z.eqb_spec x i); lia.
Qed.
(** What holds of all (of some) elements of a part containing [lo, hi) still does. *)
Lemma shuf_all lo hi m m' (P : Z -> Prop) a b : 0 <= lo -> hi <= zlen m -> shuf lo hi m m' -> 0 <= a -> a <= lo -> hi <= b ->
  (forall i, a <= i < b -> P (get m i)) -> forall i, a <= i < b -> P (get m' i).
Proof.
  intros L H S A AL BH Q. induction S as [|m' i j S IH I J]; [assumption|]. apply shuf_len in S.
  intros x X. rewrite get_swap by lia. destruct (Z.eqb_spec x j), (Z.eqb_spec x i); apply IH; lia.
Qed.
Lemma shuf_some lo hi m m' (P : Z -> Prop) a b : 0 <= lo -> hi <= zlen m -> shuf lo hi m m' -> 0 <= a -> a <= lo -> hi <= b ->
  (exists i, a <= i < b /\ P (get m i)) -> exists i, a <= i < b /\ P (get m' i).
Proof.
  intros L H S A AL BH Q. induction S as [|m' i j S IH I J]; [assumption|]. apply shuf_len in S.
  destruct IH as (x & X & PX). destruct (Z.eqb_spec x i) as [->|NI].
  - exists j. split; [lia|]. rewrite get_swap by lia. rewrite Z.eqb_refl. assumption.
  - destruct (Z.eqb_spec x j) as [->|NJ].
    + exists i. split; [lia|]. rewrite get_swap by lia. rewrite Z.eqb_refl. destruct (Z.eqb_spec i j); [lia|assumption].
    + exists x. split; [lia|]. rewrite get_swap by lia. destruct (Z.eqb_spec x j), (Z.eqb_spec x i); try lia. assumption.
Qed.

Section Sort.
Variable comp : Z -> Z -> res bool.
Variable k : Z -> Z.
Hypothesis comp_k : forall a b, comp a b = Ok (k a <? k b).

Lemma comp_at_ok m p q : 0 <= p < zlen m -> 0 <= q < zlen m -> comp_at comp m p q = Ok (k (get m p) <? k (get m q)).
Proof. intros P Q. unfold comp_at. rewrite !rd_ok by assumption. cbn [bind]. apply comp_k. Qed.
Lemma iter_swap_ok m p q : 0 <= p < zlen m -> 0 <= q < zlen m -> iter_swap m p q = Ok (swap m p q).
Proof.
  intros P Q. unfold iter_swap. rewrite !rd_ok by assumption. cbn [bind]. rewrite wr_ok by assumption. cbn [bind].
  rewrite wr_ok by (rewrite zlen_put; assumption). reflexivity.
Qed.

Definition sorted (lo hi : Z) (m : list Z) : Prop := forall i j, lo <= i < j -> j < hi -> k (get m i) <= k (get m j).
(** Exchanges of adjacent elements strictly out of order. *)
Inductive bub (lo hi : Z) (m : list Z) : list Z -> Prop :=
| bub_refl : bub lo hi m m
| bub_step m' i : bub lo hi m m' -> lo <= i -> i + 1 < hi -> k (get m' (i + 1)) < k (get m' i) -> bub lo hi m (swap m' (i + 1) i).
Lemma bub_trans lo hi m m' m'' : bub lo hi m m' -> bub lo hi m' m'' -> bub lo hi m m''.
Proof. intros A B. induction B as [|m3 i B IH I J K]; [assumption|]. apply bub_step; assumption. Qed.
Lemma bub_one lo hi m i j : j = i + 1 -> lo <= i -> j < hi -> k (get m j) < k (get m i) -> bub lo hi m (swap m j i).
Proof. intros -> I J K. apply bub_step; [constructor|assumption..]. Qed.
Lemma bub_shuf lo hi m m' : bub lo hi m m' -> shuf lo hi m m'.
Proof. intros B. induction B as [|m' i B IH I J K]; [constructor|]. apply shuf_step; [assumption|lia..]. Qed.
Lemma bub_wide lo hi lo' hi' m m' : lo' <= lo -> hi <= hi' -> bub lo hi m m' -> bub lo' hi' m m'.
Proof. intros L H B. induction B; [constructor|]. apply bub_step; [assumption|lia..|assumption]. Qed.

(** ** Insertion *)
(** [val] is on its way down from [hi - 1]; the hole is at [last]. *)
Lemma linear_insert_loop_ok lo hi s : forall n fuel m val last,
  n = Z.to_nat (last - s) -> 0 <= lo <= s -> s < last -> last < hi -> hi <= zlen m -> (n < fuel)%nat ->
  k (get m s) <= k val ->
  (forall i j, lo <= i < j -> j < hi -> i <> last -> j <> last -> k (get m i) <= k (get m j)) ->
  (forall j, last < j < hi -> k val < k (get m j)) ->
  exists m', linear_insert_loop comp fuel m val last (last - 1) = Ok m' /\
    bub lo hi (put m last val) m' /\ sorted lo hi m'.
Proof.
  induction n as [|n IH]; intros fuel m val last N LO SL LH HZ F KS SO GT; [lia|].
  destruct fuel as [|fuel]; [lia|]. cbn [linear_insert_loop]. rewrite rd_ok by lia. cbn [bind]. rewrite comp_k. cbn [bind].
  destruct (Z.ltb_spec (k val) (k (get m (last - 1)))) as [C|C].
  - assert (last - 1 <> s) by (intros E; rewrite E in C; lia).
    rewrite wr_ok by lia. cbn [bind]. rewrite padd_ok by (rewrite zlen_put; lia). cbn [bind].
    replace (last - 1 + -1) with (last - 1 - 1) by lia.
    destruct (IH fuel (put m last (get m (last - 1))) val (last - 1)) as (m' & E & B & S); rewrite ?zlen_put; try lia.
    + rewrite get_put_other by lia. assumption.
    + intros i j I J NI NJ. rewrite !get_put by lia.
      destruct (Z.eqb_spec last i), (Z.eqb_spec last j); try lia.
      * subst i. apply SO; lia.
      * subst j. apply SO; lia.
      * apply SO; lia.
    + intros j J. rewrite get_put by lia. destruct (Z.eqb_spec last j); [assumption|]. apply GT. lia.
    + exists m'. split; [assumption|]. split; [|assumption].
      eapply bub_trans; [|exact B]. rewrite hole_swap by lia.
      apply bub_one; [lia..|]. rewrite get_put_same by lia. rewrite get_put_other by lia. assumption.
  - rewrite wr_ok by lia. exists (put m last val). split; [reflexivity|]. split; [constructor|].
    intros i j I J. rewrite !get_put by lia.
    destruct (Z.eqb_spec last i), (Z.eqb_spec last j); try lia.
    + subst i. specialize (GT j). lia.
    + subst j. destruct (Z.eq_dec i (last - 1)) as [->|NE]; [assumption|].
      specialize (SO i (last - 1)). lia.
    + apply SO; lia.
Qed.
Lemma unguarded_linear_insert_ok lo s i m : 0 <= lo <= s -> s < i -> i < zlen m -> k (get m s) <= k (get m i) ->
  sorted lo i m -> exists m', unguarded_linear_insert comp m i = Ok m' /\ bub lo (i + 1) m m' /\ sorted lo (i + 1) m'.
Proof.
  intros LO SI IZ KS SO. unfold unguarded_linear_insert. rewrite rd_ok by lia. cbn [bind]. rewrite padd_ok by lia. cbn [bind].
  replace (i + -1) with (i - 1) by lia.
  destruct (linear_insert_loop_ok lo (i + 1) s _ (S (length m)) m (get m i) i eq_refl) as (m' & E & B & S); try lia.
  - unfold zlen in *. lia.
  - intros a b A Bb NA NB. apply SO; lia.
  - exists m'. rewrite put_get in B by lia. auto.
Qed.

(** [val], the content of [i], goes in front of everything. *)
Lemma move_backward_ok lo hi val : forall n m i, n = Z.to_nat (i - lo) -> 0 <= lo <= i -> i < hi -> hi <= zlen m ->
  (forall j, lo <= j < i -> k val < k (get m j)) ->
  exists m', move_backward n m i (i + 1) = Ok m' /\ zlen m' = zlen m /\
    bub lo hi (put m i val) (put m' lo val) /\
    (forall j, lo < j <= i -> get m' j = get m (j - 1)) /\ (forall j, i < j -> get m' j = get m j).
Proof.
  induction n as [|n IH]; intros m i N LO IH' HZ GT; cbn [move_backward].
  - assert (i = lo) by lia. subst i. exists m. split; [reflexivity|]. split; [reflexivity|].
    split; [constructor|]. split; [intros j J; lia|reflexivity].
  - rewrite padd_ok by lia. cbn [bind]. rewrite padd_ok by lia. cbn [bind]. rewrite rd_ok by lia. cbn [bind].
    rewrite wr_ok by lia. cbn [bind]. replace (i + 1 + -1) with (i + -1 + 1) by lia. replace (i + -1) with (i - 1) by lia.
    destruct (IH (put m (i - 1 + 1) (get m (i - 1))) (i - 1)) as (m' & E & L & B & M & O); rewrite ?zlen_put in *; try lia.
    + intros j J. rewrite get_put_other by lia. apply GT. lia.
    + replace (i - 1 + 1) with i in * by lia. exists m'. split; [assumption|]. split; [assumption|]. split; [|split].
      * eapply bub_trans; [|exact B]. rewrite hole_swap by lia.
        apply bub_one; [lia..|]. rewrite get_put_same by lia. rewrite get_put_other by lia. apply GT. lia.
      * intros j J. destruct (Z.eq_dec j i) as [->|NE].
        -- rewrite O by lia. rewrite get_put_same by lia. reflexivity.
        -- rewrite M by lia. rewrite get_put_other by lia. reflexivity.
      * intros j J. rewrite O by lia. rewrite get_put_other by lia. reflexivity.
Qed.

Lemma insertion_loop_ok first last : forall n fuel m i, n = Z.to_nat (last - i) -> 0 <= first < i -> i <= last -> last <= zlen m ->
  (n < fuel)%nat -> sorted first i m ->
  exists m', insertion_loop comp fuel m first last i = Ok m' /\ bub first last m m' /\ sorted first last m'.
Proof.
  induction n as [|n IH]; intros fuel m i N FI IL LZ F SO; (destruct fuel as [|fuel]; [lia|]); cbn [insertion_loop].
  - assert (i = last) by lia. subst i. rewrite Z.eqb_refl. exists m. split; [reflexivity|]. split; [constructor|assumption].
  - destruct (Z.eqb_spec i last); [lia|]. rewrite comp_at_ok by lia. cbn [bind].
    assert (X : exists m1, (if k (get m i) <? k (get m first)
        then let* val := rd m i in let* mem := move_backward (Z.to_nat (i - first)) m i (i + 1) in wr mem first val
        else unguarded_linear_insert comp m i) = Ok m1 /\ bub first last m m1 /\ sorted first (i + 1) m1).
    { destruct (Z.ltb_spec (k (get m i)) (k (get m first))) as [C|C].
      - rewrite rd_ok by lia. cbn [bind].
        assert (GT : forall j, first <= j < i -> k (get m i) < k (get m j)).
        { intros j J. destruct (Z.eq_dec j first) as [->|NE]; [assumption|]. specialize (SO first j). lia. }
        destruct (move_backward_ok first last (get m i) _ m i eq_refl) as (m1 & E & L & B & M & O); try lia; [assumption|].
        rewrite E. cbn [bind]. rewrite wr_ok by lia. eexists. split; [reflexivity|].
        rewrite put_get in B by lia. split; [assumption|].
        intros a b A Bb. rewrite !get_put by lia. destruct (Z.eqb_spec first a), (Z.eqb_spec first b); try lia.
        + rewrite M by lia. specialize (GT (b - 1)). lia.
        + rewrite !M by lia. apply SO; lia.
      - destruct (unguarded_linear_insert_ok first first i m) as (m1 & E & B & S); try lia; [assumption|].
        exists m1. split; [assumption|]. split; [|assumption]. eapply bub_wide; [| |exact B]; lia. }
    destruct X as (m1 & E & B & S). rewrite E. cbn [bind].
    pose proof (shuf_len _ _ _ _ (bub_shuf _ _ _ _ B)) as L.
    destruct (IH fuel m1 (i + 1)) as (m' & E' & B' & S'); try lia; [assumption|].
    exists m'. split; [assumption|]. split; [|assumption]. eapply bub_trans; eassumption.
Qed.
Lemma insertion_sort_ok first last m : 0 <= first <= last -> last <= zlen m ->
  exists m', insertion_sort comp m first last = Ok m' /\ bub first last m m' /\ sorted first last m'.
Proof.
  intros FL LZ. unfold insertion_sort. destruct (Z.eqb_spec first last) as [E|NE].
  - exists m. split; [reflexivity|]. split; [constructor|]. intros i j I J. lia.
  - apply (insertion_loop_ok first last (Z.to_nat (last - (first + 1)))); try lia; [unfold zlen in *; lia|].
    intros i j I J. lia.
Qed.
(** Unguarded: [first] holds a minimum. *)
Lemma unguarded_insertion_sort_ok first last : forall n fuel m i, n = Z.to_nat (last - i) -> 0 <= first < i -> i <= last -> last <= zlen m ->
  (n < fuel)%nat -> sorted first i m -> (forall j, first <= j < last -> k (get m first) <= k (get m j)) ->
  exists m', unguarded_insertion_sort comp fuel m i last = Ok m' /\ bub first last m m' /\ sorted first last m'.
Proof.
  induction n as [|n IH]; intros fuel m i N FI IL LZ F SO MN; (destruct fuel as [|fuel]; [lia|]); cbn [unguarded_insertion_sort].
  - assert (i = last) by lia. subst i. rewrite Z.eqb_refl. exists m. split; [reflexivity|]. split; [constructor|assumption].
  - destruct (Z.eqb_spec i last); [lia|].
    destruct (unguarded_linear_insert_ok first first i m) as (m1 & E & B & S); try lia; [apply MN; lia|assumption|].
    rewrite E. cbn [bind]. pose proof (bub_shuf _ _ _ _ B) as SH. pose proof (shuf_len _ _ _ _ SH) as L.
    assert (MN' : forall j, first <= j < last -> k (get m1 first) <= k (get m1 j)).
    { assert (LB : forall j, first <= j < last -> k (get m first) <= k (get m1 j)).
      { apply (shuf_all first (i + 1) m m1 (fun v => k (get m first) <= k v) first last ltac:(lia) ltac:(lia) SH); try lia. assumption. }
      assert (UB : k (get m1 first) <= k (get m first)).
      { destruct (shuf_some first (i + 1) m m1 (fun v => v = get m first) first (i + 1) ltac:(lia) ltac:(lia) SH) as (x & X & EX); try lia.
        { exists first. split; [lia|reflexivity]. }
        rewrite <- EX. destruct (Z.eq_dec x first) as [->|NE]; [lia|]. apply S; lia. }
      intros j J. specialize (LB j J). lia. }
    destruct (IH fuel m1 (i + 1)) as (m' & E' & B' & S'); try lia; [assumption..|].
    exists m'. split; [assumption|]. split; [|assumption]. eapply bub_trans; [|exact B']. eapply bub_wide; [| |exact B]; lia.
Qed.

(** A minimum of [first, last) among its first 16 elements. *)
Definition min_early (first last : Z) (m : list Z) : Prop :=
  exists p, first <= p < last /\ p < first + 16 /\ forall j, first <= j < last -> k (get m p) <= k (get m j).
Lemma final_insertion_sort_ok first last m : 0 <= first <= last -> last <= zlen m -> (first < last -> min_early first last m) ->
  exists m', final_insertion_sort comp m first last = Ok m' /\ bub first last m m' /\ sorted first last m'.
Proof.
  intros FL LZ ME. unfold final_insertion_sort, threshold. destruct (Z.gtb_spec (last - first) 16) as [G|G]; [|apply insertion_sort_ok; assumption].
  destruct (insertion_sort_ok first (first + 16) m) as (m1 & E & B & SS); try lia. rewrite E. cbn [bind].
  pose proof (bub_shuf _ _ _ _ B) as SH. pose proof (shuf_len _ _ _ _ SH) as L.
  destruct (ME ltac:(lia)) as (p & P1 & P2 & P3).
  assert (LB : forall j, first <= j < last -> k (get m p) <= k (get m1 j)).
  { apply (shuf_all first (first + 16) m m1 (fun v => k (get m p) <= k v) first last ltac:(lia) ltac:(lia) SH); lia || assumption. }
  assert (UB : k (get m1 first) <= k (get m p)).
  { destruct (shuf_some first (first + 16) m m1 (fun v => v = get m p) first (first + 16) ltac:(lia) ltac:(lia) SH) as (x & X & EX); try lia.
    { exists p. split; [lia|reflexivity]. }
    rewrite <- EX. destruct (Z.eq_dec x first) as [->|NE]; [lia|]. apply SS; lia. }
  destruct (unguarded_insertion_sort_ok first last _ (S (length m1)) m1 (first + 16) eq_refl) as (m' & E' & B' & SS'); try lia.
  - unfold zlen in *. lia.
  - assumption.
  - exists m'. split; [assumption|]. split; [|assumption]. eapply bub_trans; [|exact B']. eapply bub_wide; [| |exact B]; lia.
Qed.

(** ** Partition *)
Lemma move_median_ok m r a b c : 0 <= r -> r < a -> a < b -> b < c -> c < zlen m ->
  exists m' x, move_median_to_first comp m r a b c = Ok m' /\ m' = swap m r x /\ a <= x <= c /\
    exists q, a <= q <= c /\ k (get m' r) <= k (get m' q).
Proof.
  intros R RA AB BC CZ. unfold move_median_to_first.
  assert (G : forall x q, a <= x <= c -> a <= q <= c -> q <> x -> k (get m x) <= k (get m q) ->
    exists m' y, Ok (swap m r x) = Ok m' /\ m' = swap m r y /\ a <= y <= c /\ exists q, a <= q <= c /\ k (get m' r) <= k (get m' q)).
  { intros x q X Q N K. exists (swap m r x), x. split; [reflexivity|]. split; [reflexivity|]. split; [assumption|].
    exists q. split; [assumption|]. rewrite !get_swap by lia.
    destruct (Z.eqb_spec r x), (Z.eqb_spec r r), (Z.eqb_spec q x), (Z.eqb_spec q r); try lia. }
  rewrite !comp_at_ok, !iter_swap_ok by lia. cbn [bind].
  destruct (Z.ltb_spec (k (get m a)) (k (get m b))), (Z.ltb_spec (k (get m b)) (k (get m c))), (Z.ltb_spec (k (get m a)) (k (get m c))); cbn [bind].
  - apply (G b c); lia.
  - apply (G b c); lia.
  - apply (G c b); lia.
  - apply (G a b); lia.
  - apply (G a c); lia.
  - apply (G c a); lia.
  - apply (G a c); lia.
  - apply (G b a); lia.
Qed.
Lemma scan_right_ok m p q : 0 <= p < zlen m -> q < zlen m -> k (get m p) <= k (get m q) -> forall n fuel f, n = Z.to_nat (q - f) -> 0 <= f <= q -> (n < fuel)%nat ->
  exists f', scan_right comp fuel m f p = Ok f' /\ f <= f' <= q /\ k (get m p) <= k (get m f') /\
    forall j, f <= j < f' -> k (get m j) < k (get m p).
Proof.
  intros P Q K. induction n as [|n IH]; intros fuel f N F FU; (destruct fuel as [|fuel]; [lia|]); cbn [scan_right].
  - assert (f = q) by lia. subst f. rewrite comp_at_ok by lia. cbn [bind]. destruct (Z.ltb_spec (k (get m q)) (k (get m p))); [lia|].
    exists q. split; [reflexivity|]. split; [lia|]. split; [lia|]. intros j J. lia.
  - rewrite comp_at_ok by lia. cbn [bind]. destruct (Z.ltb_spec (k (get m f)) (k (get m p))) as [C|C].
    + rewrite padd_ok by lia. cbn [bind]. destruct (IH fuel (f + 1)) as (f' & E & R & K' & A); try lia.
      exists f'. split; [assumption|]. split; [lia|]. split; [assumption|]. intros j J.
      destruct (Z.eq_dec j f) as [->|NE]; [assumption|]. apply A. lia.
    + exists f. split; [reflexivity|]. split; [lia|]. split; [assumption|]. intros j J. lia.
Qed.
Lemma scan_left_ok m p : 0 <= p -> forall n fuel l, n = Z.to_nat (l - p) -> p <= l < zlen m -> (n < fuel)%nat ->
  exists l', scan_left comp fuel m l p = Ok l' /\ p <= l' <= l /\ k (get m l') <= k (get m p) /\
    forall j, l' < j <= l -> k (get m p) < k (get m j).
Proof.
  intros P. induction n as [|n IH]; intros fuel l N L FU; (destruct fuel as [|fuel]; [lia|]); cbn [scan_left].
  - assert (l = p) by lia. subst l. rewrite comp_at_ok by lia. cbn [bind]. rewrite Z.ltb_irrefl.
    exists p. split; [reflexivity|]. split; [lia|]. split; [lia|]. intros j J. lia.
  - rewrite comp_at_ok by lia. cbn [bind]. destruct (Z.ltb_spec (k (get m p)) (k (get m l))) as [C|C].
    + rewrite padd_ok by lia. cbn [bind]. replace (l + -1) with (l - 1) by lia.
      destruct (IH fuel (l - 1)) as (l' & E & R & K' & A); try lia.
      exists l'. split; [assumption|]. split; [lia|]. split; [assumption|]. intros j J.
      destruct (Z.eq_dec j l) as [->|NE]; [assumption|]. apply A. lia.
    + exists l. split; [reflexivity|]. split; [lia|]. split; [assumption|]. intros j J. lia.
Qed.
Lemma unguarded_partition_ok lo hi : 0 <= lo -> forall n fuel m first last, n = Z.to_nat (last - first) ->
  lo < first -> first <= last -> last <= hi -> hi <= zlen m -> (n < fuel)%nat ->
  (forall j, lo < j < first -> k (get m j) <= k (get m lo)) ->
  (forall j, last <= j < hi -> k (get m lo) <= k (get m j)) ->
  (exists q, first <= q < hi /\ k (get m lo) <= k (get m q)) ->
  exists m' cut, unguarded_partition comp fuel m first last lo = Ok (m', cut) /\ shuf (lo + 1) hi m m' /\
    first <= cut < hi /\
    (forall j, lo <= j < cut -> k (get m' j) <= k (get m lo)) /\ (forall j, cut <= j < hi -> k (get m lo) <= k (get m' j)).
Proof.
  intros L0. induction n as [n IH] using lt_wf_ind. intros fuel m first last N LF FL LH HZ FU LE GE (q & Q1 & Q2).
  destruct fuel as [|fuel]; [lia|]. cbn [unguarded_partition].
  assert (ZL : zlen m = Z.of_nat (length m)) by reflexivity.
  destruct (scan_right_ok m lo q ltac:(lia) ltac:(lia) Q2 _ (S (length m)) first eq_refl) as (f & E & F1 & F2 & F3); try lia.
  rewrite E. cbn [bind]. rewrite padd_ok by lia. cbn [bind]. replace (last + -1) with (last - 1) by lia.
  destruct (scan_left_ok m lo L0 _ (S (length m)) (last - 1) eq_refl) as (l & E' & G1 & G2 & G3); try lia.
  rewrite E'. cbn [bind]. destruct (Z.ltb_spec f l) as [C|C]; cbn [negb].
  - rewrite iter_swap_ok by lia. cbn [bind].
    assert (GL : get (swap m f l) lo = get m lo).
    { rewrite get_swap by lia. destruct (Z.eqb_spec lo l), (Z.eqb_spec lo f); lia || reflexivity. }
    destruct (IH (Z.to_nat (l - (f + 1))) ltac:(lia) fuel (swap m f l) (f + 1) l eq_refl) as (m' & cut & E2 & S2 & C2 & A2 & B2);
      rewrite ?zlen_swap, ?GL in *; try lia.
    + intros j J. rewrite get_swap by lia. destruct (Z.eqb_spec j l); [lia|]. destruct (Z.eqb_spec j f); [assumption|].
      destruct (Z_lt_ge_dec j first) as [?|?]; [apply LE; lia|]. specialize (F3 j). lia.
    + intros j J. rewrite get_swap by lia. destruct (Z.eqb_spec j l); [assumption|]. destruct (Z.eqb_spec j f); [lia|].
      destruct (Z_lt_ge_dec j last) as [?|?]; [specialize (G3 j); lia|]. apply GE. lia.
    + exists l. split; [lia|]. rewrite get_swap by lia. rewrite Z.eqb_refl. assumption.
    + exists m', cut. split; [assumption|]. split; [|split; [lia|split; assumption]].
      eapply shuf_trans; [|exact S2]. apply shuf_one; lia.
  - exists m, f. split; [reflexivity|]. split; [constructor|]. split; [lia|]. split.
    + intros j J. destruct (Z.eq_dec j lo) as [->|NE]; [lia|]. destruct (Z_lt_ge_dec j first) as [?|?]; [apply LE; lia|]. specialize (F3 j). lia.
    + intros j J. destruct (Z_lt_ge_dec j last) as [?|?]; [|apply GE; lia].
      destruct (Z.eq_dec j f) as [->|NE]; [assumption|]. specialize (G3 j). lia.
Qed.
Lemma partition_pivot_ok first last m : 0 <= first -> first + 3 < last -> last <= zlen m ->
  exists m' cut v, unguarded_partition_pivot comp m first last = Ok (m', cut) /\ shuf first last m m' /\ first < cut < last /\
    (forall j, first <= j < cut -> k (get m' j) <= v) /\ (forall j, cut <= j < last -> v <= k (get m' j)).
Proof.
  intros F FL LZ. unfold unguarded_partition_pivot.
  pose proof (Z.div_mod (last - first) 2 ltac:(lia)). pose proof (Z.mod_pos_bound (last - first) 2 ltac:(lia)).
  destruct (move_median_ok m first (first + 1) (first + (last - first) / 2) (last - 1)) as (m1 & x & E & E1 & X & q & Q1 & Q2); try lia.
  rewrite E. cbn [bind]. assert (L1 : zlen m1 = zlen m) by (rewrite E1; apply zlen_swap).
  destruct (unguarded_partition_ok first last F _ (S (length m1)) m1 (first + 1) last eq_refl) as (m' & cut & E2 & S2 & C2 & A2 & B2); try lia.
  - unfold zlen in *. lia.
  - exists q. split; [lia|assumption].
  - exists m', cut, (k (get m1 first)). split; [assumption|]. split; [|split; [lia|split; assumption]].
    eapply shuf_trans; [|eapply shuf_wide; [| |exact S2]; lia]. rewrite E1. apply shuf_one; lia.
Qed.

(** ** Heaps *)
(** The parents from [t] on are not smaller than their children ([0, len) relative to [first]). *)
Definition child (p c : Z) : Prop := c = 2 * p + 1 \/ c = 2 * p + 2.
Definition heap (t len first : Z) (m : list Z) : Prop := forall p c, t <= p -> c < len -> child p c ->
  k (get m (first + c)) <= k (get m (first + p)).
Inductive desc (t : Z) : Z -> Prop :=
| desc_refl : desc t t
| desc_child p c : desc t p -> child p c -> desc t c.
Lemma desc_le t h : 0 <= t -> desc t h -> t <= h.
Proof. intros T D. unfold child in *. induction D; [lia|]. unfold child in *. lia. Qed.
Lemma parent_of p c : 0 <= p -> child p c -> Z.quot (c - 1) 2 = p.
Proof.
  unfold child. intros P C. rewrite Z.quot_div_nonneg by lia. pose proof (Z.div_mod (c - 1) 2 ltac:(lia)).
  pose proof (Z.mod_pos_bound (c - 1) 2 ltac:(lia)). lia.
Qed.
Lemma heap_max len first m : heap 0 len first m -> forall i, 0 <= i < len -> k (get m (first + i)) <= k (get m first).
Proof.
  intros H i I. destruct I as [I0 I1]. revert i I0 I1. apply (Zlt_lower_bound_ind (fun i => i < len -> k (get m (first + i)) <= k (get m first))).
  intros i IH I0 I1. destruct (Z.eq_dec i 0) as [->|N]; [rewrite Z.add_0_r; lia|].
  pose proof (Z.div_mod (i - 1) 2 ltac:(lia)). pose proof (Z.mod_pos_bound (i - 1) 2 ltac:(lia)).
  specialize (IH ((i - 1) / 2) ltac:(lia) ltac:(lia)). specialize (H ((i - 1) / 2) i). unfold child in H. lia.
Qed.

(** [value] is on its way up, the hole is at [hole]; the memory with whatever is in the hole is a heap. *)
Lemma push_heap_ok first len top value : 0 <= first -> 0 <= top -> forall n fuel m hole, n = Z.to_nat hole -> desc top hole -> hole < len ->
  first + len <= zlen m -> (n < fuel)%nat -> heap top len first m ->
  (forall c, c < len -> child hole c -> k (get m (first + c)) <= k value) ->
  exists m', push_heap comp fuel m first hole top value = Ok m' /\
    shuf first (first + len) (put m (first + hole) value) m' /\ heap top len first m'.
Proof.
  intros F T. induction n as [n IH] using lt_wf_ind. intros fuel m hole N D H Z FU HP CH.
  pose proof (desc_le _ _ T D) as TH.
  destruct fuel as [|fuel]; [lia|]. cbn [push_heap].
  assert (STOP : (top < hole -> k value <= k (get m (first + Z.quot (hole - 1) 2))) ->
    exists m', wr m (first + hole) value = Ok m' /\ shuf first (first + len) (put m (first + hole) value) m' /\ heap top len first m').
  { intros PA. rewrite wr_ok by lia. eexists. split; [reflexivity|]. split; [constructor|].
    intros p c P C E. assert (p < c) by (unfold child in E; lia). rewrite !get_put by lia.
    destruct (Z.eqb_spec (first + hole) (first + c)), (Z.eqb_spec (first + hole) (first + p)); try lia.
    - assert (c = hole) by lia. subst c. rewrite <- (parent_of p hole) by (assumption || lia). apply PA. lia.
    - assert (p = hole) by lia. subst p. apply CH; assumption.
    - apply HP; assumption. }
  destruct (Z.gtb_spec hole top) as [G|G]; [|apply STOP; lia].
  inversion D as [E|par h D' PC E]; subst; [lia|]. pose proof (desc_le _ _ T D') as TP.
  rewrite (parent_of par hole) in * by (assumption || lia).
  assert (PL : par < hole) by (unfold child in PC; lia).
  rewrite rd_ok by lia. cbn [bind]. rewrite comp_k. cbn [bind].
  destruct (Z.ltb_spec (k (get m (first + par))) (k value)) as [C|C]; [|apply STOP; lia].
  rewrite wr_ok by lia. cbn [bind].
  destruct (IH (Z.to_nat par) ltac:(lia) fuel (put m (first + hole) (get m (first + par))) par eq_refl D') as (m' & E & S & HP');
    rewrite ?zlen_put; try lia.
  - intros p c P CL E. assert (p < c) by (unfold child in E; lia). rewrite !get_put by lia.
    destruct (Z.eqb_spec (first + hole) (first + c)), (Z.eqb_spec (first + hole) (first + p)); try lia.
    + assert (c = hole) by lia. subst c. rewrite <- (parent_of p hole) by (assumption || lia). rewrite (parent_of par hole) by (assumption || lia). lia.
    + assert (p = hole) by lia. subst p. pose proof (HP hole c P CL E). pose proof (HP par hole TP H PC). lia.
    + apply HP; assumption.
  - intros c CL E. assert (par < c) by (unfold child in E; lia). rewrite get_put by lia.
    destruct (Z.eqb_spec (first + hole) (first + c)); [lia|]. pose proof (HP par c TP CL E). lia.
  - exists m'. split; [assumption|]. split; [|assumption]. eapply shuf_trans; [|exact S].
    rewrite hole_swap by lia. apply shuf_one; lia.
Qed.

(** The hole sinks to a leaf.  [m]: a heap, except below the hole as long as it is at [top]. *)
Definition sinking (top len first hole : Z) (m : list Z) : Prop :=
  forall p c, top <= p -> c < len -> child p c -> p <> top \/ hole <> top -> k (get m (first + c)) <= k (get m (first + p)).
Lemma sink_step top len first hole m s value : 0 <= first -> 0 <= top -> desc top hole -> first + len <= zlen m -> hole < len -> s < len ->
  child hole s -> (forall c, c < len -> child hole c -> k (get m (first + c)) <= k (get m (first + s))) ->
  sinking top len first hole m ->
  let m' := put m (first + hole) (get m (first + s)) in
  sinking top len first s m' /\ shuf first (first + len) (put m (first + hole) value) (put m' (first + s) value) /\ desc top s.
Proof.
  intros F T D Z HL SL C MX SK m'. pose proof (desc_le _ _ T D) as TH. assert (HS : hole < s) by (unfold child in C; lia).
  split; [|split; [|econstructor; eassumption]].
  - intros p c P CL E NT. assert (p < c) by (unfold child in E; lia). subst m'. rewrite !get_put by lia.
    destruct (Z.eqb_spec (first + hole) (first + c)), (Z.eqb_spec (first + hole) (first + p)); try lia.
    + assert (c = hole) by lia. subst c. assert (hole <> top) by lia.
      pose proof (SK p hole P HL E ltac:(lia)). pose proof (SK hole s TH SL C ltac:(lia)). lia.
    + assert (p = hole) by lia. subst p. apply MX; assumption.
    + apply SK; try assumption. lia.
  - subst m'. rewrite hole_swap by lia. apply shuf_one; lia.
Qed.
Lemma adjust_loop_ok top len first value : 0 <= first -> 0 <= top -> forall n fuel m hole, n = Z.to_nat (len - hole) -> desc top hole -> hole < len ->
  first + len <= zlen m -> (n < fuel)%nat -> sinking top len first hole m ->
  exists m' h, adjust_loop comp fuel m first hole len hole = Ok (m', h, h) /\ zlen m' = zlen m /\
    shuf first (first + len) (put m (first + hole) value) (put m' (first + h) value) /\ desc top h /\ h < len /\
    sinking top len first h m' /\ (len - 1) / 2 <= h.
Proof.
  intros F T. induction n as [n IH] using lt_wf_ind. intros fuel m hole N D H Z FU SK.
  pose proof (desc_le _ _ T D) as TH. destruct fuel as [|fuel]; [lia|]. cbn [adjust_loop].
  rewrite Z.quot_div_nonneg by lia. pose proof (Z.div_mod (len - 1) 2 ltac:(lia)). pose proof (Z.mod_pos_bound (len - 1) 2 ltac:(lia)).
  destruct (Z.ltb_spec hole ((len - 1) / 2)) as [C|C].
  - cbv zeta. rewrite comp_at_ok by lia. cbn [bind].
    set (s := if k (get m (first + 2 * (hole + 1))) <? k (get m (first + (2 * (hole + 1) - 1))) then 2 * (hole + 1) - 1 else 2 * (hole + 1)).
    assert (CS : child hole s /\ s < len /\ forall c, c < len -> child hole c -> k (get m (first + c)) <= k (get m (first + s))).
    { subst s. unfold child. destruct (Z.ltb_spec (k (get m (first + 2 * (hole + 1)))) (k (get m (first + (2 * (hole + 1) - 1))))) as [L|L].
      - split; [lia|]. split; [lia|]. intros c CL [E|E]; subst c.
        + replace (2 * (hole + 1) - 1) with (2 * hole + 1) by lia. lia.
        + replace (2 * hole + 2) with (2 * (hole + 1)) by lia. lia.
      - split; [lia|]. split; [lia|]. intros c CL [E|E]; subst c.
        + replace (2 * hole + 1) with (2 * (hole + 1) - 1) by lia. lia.
        + replace (2 * hole + 2) with (2 * (hole + 1)) by lia. lia. }
    destruct CS as (CS & SL & MX). assert (hole < s) by (unfold child in CS; lia).
    rewrite rd_ok by lia. cbn [bind]. rewrite wr_ok by lia. cbn [bind].
    destruct (sink_step top len first hole m s value) as (SK' & SH & D'); try assumption.
    destruct (IH (Z.to_nat (len - s)) ltac:(lia) fuel (put m (first + hole) (get m (first + s))) s eq_refl) as (m' & h & E & L & SH' & D2 & HL & SK2 & LE);
      rewrite ?zlen_put; try lia; try assumption.
    exists m', h. rewrite zlen_put in L. split; [assumption|]. split; [assumption|]. split; [eapply shuf_trans; eassumption|]. auto.
  - exists m, hole. split; [reflexivity|]. split; [reflexivity|]. split; [constructor|]. auto.
Qed.
Lemma adjust_heap_ok first len top value m : 0 <= first -> 0 <= top < len -> first + len <= zlen m -> heap (top + 1) len first m ->
  exists m', adjust_heap comp m first top len value = Ok m' /\ shuf first (first + len) (put m (first + top) value) m' /\ heap top len first m'.
Proof.
  intros F T Z HP. unfold adjust_heap.
  destruct (adjust_loop_ok top len first value F ltac:(lia) _ (S (length m)) m top eq_refl) as (m1 & h & E & L & SH & D & HL & SK & LE); try lia.
  { constructor. }
  { unfold zlen in *. lia. }
  { intros p c P CL C NT. apply HP; try assumption. lia. }
  rewrite E. cbn [bind]. pose proof (desc_le top h ltac:(lia) D) as TH.
  pose proof (Z.div_mod (len - 1) 2 ltac:(lia)). pose proof (Z.mod_pos_bound (len - 1) 2 ltac:(lia)).
  assert (FIN : forall m2 h2, zlen m2 = zlen m -> shuf first (first + len) (put m (first + top) value) (put m2 (first + h2) value) ->
    desc top h2 -> h2 < len -> sinking top len first h2 m2 -> len <= 2 * h2 + 1 ->
    exists m', push_heap comp (S (length m2)) m2 first h2 top value = Ok m' /\
      shuf first (first + len) (put m (first + top) value) m' /\ heap top len first m').
  { intros m2 h2 L2 S2 D2 H2 SK2 LF. pose proof (desc_le top h2 ltac:(lia) D2) as T2.
    destruct (push_heap_ok first len top value F ltac:(lia) _ (S (length m2)) m2 h2 eq_refl D2) as (m' & E' & S' & HP'); try lia.
    - unfold zlen in *. lia.
    - intros p c P CL C. apply SK2; try assumption. unfold child in C. lia.
    - intros c CL C. unfold child in C. lia.
    - exists m'. split; [assumption|]. split; [|assumption]. eapply shuf_trans; eassumption. }
  destruct (Z.even len) eqn:EV.
  - apply Z.even_spec in EV. destruct EV as (q & EV). rewrite Z.quot_div_nonneg by lia.
    replace ((len - 2) / 2) with (q - 1) by (rewrite EV; replace (2 * q - 2) with ((q - 1) * 2) by lia; rewrite Z.div_mul by lia; reflexivity).
    cbn [andb]. destruct (Z.eqb_spec h (q - 1)) as [EH|NH].
    + cbv zeta. rewrite rd_ok by lia. cbn [bind]. rewrite wr_ok by lia. cbn [bind].
      destruct (sink_step top len first h m1 (2 * (h + 1) - 1) value) as (SK' & SH' & D'); try assumption; try lia.
      { unfold child. lia. }
      { intros c CL C. unfold child in C. replace c with (2 * (h + 1) - 1) by lia. lia. }
      apply FIN; rewrite ?zlen_put; try assumption; try lia. eapply shuf_trans; eassumption.
    + cbn [bind]. apply FIN; try assumption; lia.
  - cbn [andb bind]. apply FIN; try assumption. rewrite <- Z.negb_odd in EV. destruct (Z.odd len) eqn:OD; [|discriminate].
    apply Z.odd_spec in OD. destruct OD as (q & OD). lia.
Qed.
Lemma make_heap_loop_ok first len : 0 <= first -> forall n fuel m par, n = Z.to_nat par -> 0 <= par < len -> first + len <= zlen m -> (n < fuel)%nat ->
  heap (par + 1) len first m ->
  exists m', make_heap_loop comp fuel m first len par = Ok m' /\ shuf first (first + len) m m' /\ heap 0 len first m'.
Proof.
  intros F. induction n as [|n IH]; intros fuel m par N P Z FU HP; (destruct fuel as [|fuel]; [lia|]); cbn [make_heap_loop];
    rewrite rd_ok by lia; cbn [bind];
    destruct (adjust_heap_ok first len par (get m (first + par)) m F P Z HP) as (m1 & E & S1 & H1); rewrite E; cbn [bind];
    rewrite put_get in S1 by lia; pose proof (shuf_len _ _ _ _ S1) as L1.
  - assert (par = 0) by lia. subst par. rewrite Z.eqb_refl. exists m1. auto.
  - destruct (Z.eqb_spec par 0); [lia|]. destruct (IH fuel m1 (par - 1)) as (m' & E' & S' & H'); try lia.
    { replace (par - 1 + 1) with par by lia. assumption. }
    exists m'. split; [assumption|]. split; [|assumption]. eapply shuf_trans; eassumption.
Qed.
Lemma make_heap_ok first last m : 0 <= first <= last -> last <= zlen m ->
  exists m', make_heap comp m first last = Ok m' /\ shuf first last m m' /\ heap 0 (last - first) first m'.
Proof.
  intros F Z. unfold make_heap. destruct (Z.ltb_spec (last - first) 2) as [L|L].
  - exists m. split; [reflexivity|]. split; [constructor|]. intros p c P CL C. unfold child in C. lia.
  - rewrite Z.quot_div_nonneg by lia. pose proof (Z.div_mod (last - first - 2) 2 ltac:(lia)). pose proof (Z.mod_pos_bound (last - first - 2) 2 ltac:(lia)).
    destruct (make_heap_loop_ok first (last - first) ltac:(lia) _ (S (length m)) m ((last - first - 2) / 2) eq_refl) as (m' & E & S1 & H1); try lia.
    + unfold zlen in *. lia.
    + intros p c P CL C. unfold child in C. lia.
    + replace (first + (last - first)) with last in S1 by lia. exists m'. auto.
Qed.
Lemma sort_heap_ok first hi : 0 <= first -> forall n fuel m last, n = Z.to_nat (last - first) -> first <= last -> last <= hi -> hi <= zlen m -> (n < fuel)%nat ->
  heap 0 (last - first) first m -> sorted last hi m ->
  (forall i j, first <= i < last -> last <= j < hi -> k (get m i) <= k (get m j)) ->
  exists m', sort_heap comp fuel m first last = Ok m' /\ shuf first hi m m' /\ sorted first hi m'.
Proof.
  intros F. induction n as [n IH] using lt_wf_ind. intros fuel m last N FL LH HZ FU HP SO LE.
  destruct fuel as [|fuel]; [lia|]. cbn [sort_heap]. destruct (Z.gtb_spec (last - first) 1) as [G|G].
  - cbv zeta. unfold pop_heap. rewrite !rd_ok by lia. cbn [bind]. rewrite wr_ok by lia. cbn [bind].
    set (m0 := put m (last - 1) (get m first)).
    assert (H0 : heap (0 + 1) (last - 1 - first) first m0).
    { intros p c P CL C. unfold child in C. subst m0. rewrite !get_put_other by lia. apply HP; try lia. exact C. }
    destruct (adjust_heap_ok first (last - 1 - first) 0 (get m (last - 1)) m0 F ltac:(lia)) as (m1 & E & S1 & H1);
      [subst m0; rewrite zlen_put; lia|assumption|].
    rewrite E. cbn [bind]. rewrite Z.add_0_r in S1. replace (first + (last - 1 - first)) with (last - 1) in S1 by lia.
    assert (V : put m0 first (get m (last - 1)) = swap m (last - 1) first) by reflexivity.
    rewrite V in S1. assert (SW : shuf first last m (swap m (last - 1) first)) by (apply shuf_one; lia).
    pose proof (shuf_len _ _ _ _ S1) as L1. rewrite zlen_swap in L1.
    assert (TOP : forall j, last - 1 <= j < hi -> get m1 j = if j =? last - 1 then get m first else get m j).
    { intros j J. rewrite (shuf_out first (last - 1) (swap m (last - 1) first) m1 j) by (rewrite ?zlen_swap; assumption || lia).
      rewrite get_swap by lia. destruct (Z.eqb_spec j first); [lia|]. reflexivity. }
    assert (MX : forall i, first <= i < last - 1 -> k (get m1 i) <= k (get m first)).
    { apply (shuf_all first (last - 1) (swap m (last - 1) first) m1 (fun v => k v <= k (get m first)) first (last - 1));
        rewrite ?zlen_swap; try lia; [assumption|].
      intros i I. rewrite get_swap by lia.
      assert (HM : forall i, first <= i < last -> k (get m i) <= k (get m first)).
      { intros x X. replace x with (first + (x - first)) by lia. apply heap_max with (len := last - first); [assumption|lia]. }
      destruct (Z.eqb_spec i first), (Z.eqb_spec i (last - 1)); apply HM; lia. }
    assert (UP : forall i, first <= i < last -> forall j, last <= j < hi -> k (get m1 i) <= k (get m1 j)).
    { intros i I j J. rewrite (TOP j) by lia. destruct (Z.eqb_spec j (last - 1)); [lia|].
      pose proof (LE first j ltac:(lia) J). destruct (Z.eq_dec i (last - 1)) as [->|NE].
      - rewrite TOP by lia. rewrite Z.eqb_refl. assumption.
      - specialize (MX i). lia. }
    destruct (IH (Z.to_nat (last - 1 - first)) ltac:(lia) fuel m1 (last - 1) eq_refl) as (m' & E' & S' & SO'); try lia.
    + assumption.
    + intros i j I J. destruct (Z.eq_dec i (last - 1)) as [->|NE]; [apply UP; lia|]. rewrite !TOP by lia.
      destruct (Z.eqb_spec i (last - 1)), (Z.eqb_spec j (last - 1)); try lia. apply SO; lia.
    + intros i j I J. destruct (Z.eq_dec j (last - 1)) as [->|NE]; [|apply UP; lia]. rewrite (TOP (last - 1)) by lia. rewrite Z.eqb_refl. apply MX. lia.
    + exists m'. split; [assumption|]. split; [|assumption]. eapply shuf_trans; [eapply shuf_wide; [| |exact SW]; lia|].
      eapply shuf_trans; [|exact S']. eapply shuf_wide; [| |exact S1]; lia.
  - exists m. split; [reflexivity|]. split; [constructor|]. intros i j I J.
    destruct (Z_lt_ge_dec i last); [|apply SO; lia]. apply LE; lia.
Qed.
Lemma partial_sort_ok first last m : 0 <= first <= last -> last <= zlen m ->
  exists m', partial_sort comp m first last = Ok m' /\ shuf first last m m' /\ sorted first last m'.
Proof.
  intros F Z. unfold partial_sort. destruct (make_heap_ok first last m F Z) as (m1 & E & S1 & H1). rewrite E. cbn [bind].
  pose proof (shuf_len _ _ _ _ S1) as L1.
  destruct (sort_heap_ok first last ltac:(lia) _ (S (length m1)) m1 last eq_refl) as (m' & E' & S' & SO'); try lia.
  - unfold zlen in *. lia.
  - assumption.
  - intros i j I J. lia.
  - exists m'. split; [assumption|]. split; [|assumption]. eapply shuf_trans; eassumption.
Qed.

(** ** Introsort *)
Lemma min_exists first last m : first < last -> exists p, first <= p < last /\ forall j, first <= j < last -> k (get m p) <= k (get m j).
Proof.
  intros L. remember (Z.to_nat (last - first - 1)) as n eqn:N. revert last L N. induction n as [|n IH]; intros last L N.
  - exists first. split; [lia|]. intros j J. replace j with first by lia. lia.
  - destruct (IH (last - 1) ltac:(lia) ltac:(lia)) as (p & P & A). destruct (Z_le_gt_dec (k (get m p)) (k (get m (last - 1)))) as [C|C].
    + exists p. split; [lia|]. intros j J. destruct (Z.eq_dec j (last - 1)) as [->|NE]; [assumption|]. apply A. lia.
    + exists (last - 1). split; [lia|]. intros j J. destruct (Z.eq_dec j (last - 1)) as [->|NE]; [lia|]. specialize (A j). lia.
Qed.
Lemma introsort_loop_ok d : forall m first last, 0 <= first <= last -> last <= zlen m ->
  exists m', introsort_loop comp d m first last = Ok m' /\ shuf first last m m' /\ (first < last -> min_early first last m').
Proof.
  induction d as [|d IH]; intros m first last F Z; cbn [introsort_loop]; unfold threshold; destruct (Z.gtb_spec (last - first) 16) as [G|G].
  - destruct (partial_sort_ok first last m F Z) as (m' & E & S' & SO). exists m'. split; [assumption|]. split; [assumption|].
    intros _. exists first. split; [lia|]. split; [lia|]. intros j J. destruct (Z.eq_dec j first) as [->|NE]; [lia|]. apply SO; lia.
  - exists m. split; [reflexivity|]. split; [constructor|]. intros L. destruct (min_exists first last m L) as (p & P & A). exists p. split; [assumption|]. split; [lia|assumption].
  - destruct (partition_pivot_ok first last m) as (m1 & cut & v & E & S1 & C & A & B); try lia. rewrite E. cbn [bind].
    pose proof (shuf_len _ _ _ _ S1) as L1.
    destruct (IH m1 cut last) as (m2 & E2 & S2 & _); try lia. rewrite E2. cbn [bind]. pose proof (shuf_len _ _ _ _ S2) as L2.
    destruct (IH m2 first cut) as (m3 & E3 & S3 & M3); try lia. rewrite E3. pose proof (shuf_len _ _ _ _ S3) as L3.
    exists m3. split; [reflexivity|]. split.
    { eapply shuf_trans; [exact S1|]. eapply shuf_trans; [eapply shuf_wide; [| |exact S2]; lia|]. eapply shuf_wide; [| |exact S3]; lia. }
    intros _. destruct (M3 ltac:(lia)) as (p & P1 & P2 & P3). exists p. split; [lia|]. split; [lia|].
    intros j J. destruct (Z_lt_ge_dec j cut) as [LC|GC]; [apply P3; lia|].
    assert (R : forall j, cut <= j < last -> v <= k (get m3 j)).
    { intros x X. rewrite (shuf_out first cut m2 m3 x) by (assumption || lia). revert x X.
      apply (shuf_all cut last m1 m2 (fun w => v <= k w) cut last); try lia; assumption. }
    assert (Lf : forall j, first <= j < cut -> k (get m3 j) <= v).
    { apply (shuf_all first cut m2 m3 (fun w => k w <= v) first cut); try lia; [assumption|].
      intros x X. rewrite (shuf_out cut last m1 m2 x) by (assumption || lia). apply A. lia. }
    specialize (R j). specialize (Lf p). lia.
  - exists m. split; [reflexivity|]. split; [constructor|]. intros L. destruct (min_exists first last m L) as (p & P & A). exists p. split; [assumption|]. split; [lia|assumption].
Qed.

(** ** std::sort *)
Theorem std_sort_spec first last m : 0 <= first <= last -> last <= zlen m ->
  exists m', std_sort comp m first last = Ok m' /\ shuf first last m m' /\ sorted first last m'.
Proof.
  intros F Z. unfold std_sort. destruct (Z.eqb_spec first last) as [E|NE]; cbn [negb].
  - exists m. split; [reflexivity|]. split; [constructor|]. intros i j I J. lia.
  - destruct (introsort_loop_ok (Z.to_nat (Z.log2 (last - first) * 2)) m first last F Z) as (m1 & E1 & S1 & M1).
    rewrite E1. cbn [bind]. pose proof (shuf_len _ _ _ _ S1) as L1.
    destruct (final_insertion_sort_ok first last m1) as (m' & E' & B' & SO'); try lia; [assumption|].
    exists m'. split; [assumption|]. split; [|assumption]. eapply shuf_trans; [exact S1|]. apply bub_shuf. assumption.
Qed.
Theorem std_sort_small first last m : 0 <= first <= last -> last <= zlen m -> last - first <= 16 ->
  exists m', std_sort comp m first last = Ok m' /\ bub first last m m' /\ sorted first last m'.
Proof.
  intros F Z SM. unfold std_sort. destruct (Z.eqb_spec first last) as [E|NE]; cbn [negb].
  - exists m. split; [reflexivity|]. split; [constructor|]. intros i j I J. lia.
  - assert (I : forall d, introsort_loop comp d m first last = Ok m).
    { intros d. destruct d; cbn [introsort_loop]; unfold threshold; destruct (Z.gtb_spec (last - first) 16); try lia; reflexivity. }
    rewrite I. cbn [bind]. unfold final_insertion_sort, threshold. destruct (Z.gtb_spec (last - first) 16); [lia|].
    apply insertion_sort_ok; assumption.
Qed.

(** Exchanges of adjacent elements out of order keep the elements of each key in order. *)
Lemma bub_filter lo hi m m' (P : Z -> bool) : (forall a b, P a = true -> P b = true -> k a = k b) -> 0 <= lo -> hi <= zlen m ->
  bub lo hi m m' -> List.filter P m' = List.filter P m.
Proof.
  intros SAME L H B. induction B as [|m' i B IH I J K]; [reflexivity|]. rewrite <- IH.
  pose proof (shuf_len _ _ _ _ (bub_shuf _ _ _ _ B)) as ZL. clear B IH. assert (IL : i + 1 < Z.of_nat (length m')) by (unfold zlen in *; lia).
  destruct (nth_split m' 0 (n := Z.to_nat i)) as (l1 & l2 & E1 & L1); [lia|]. fold (get m' i) in E1.
  destruct l2 as [|b l2]; [apply (f_equal (@length Z)) in E1; rewrite app_length in E1; cbn in E1; lia|].
  assert (G : get m' (i + 1) = b).
  { unfold get. rewrite E1, app_nth2 by lia. replace (Z.to_nat (i + 1) - length l1)%nat with 1%nat by lia. reflexivity. }
  rewrite swap_sym by (unfold zlen in *; lia). rewrite G in K. unfold swap, put. rewrite G. set (a := get m' i) in *.
  rewrite E1. replace (Z.to_nat i) with (length l1) by lia. rewrite upd_app.
  replace (l1 ++ b :: b :: l2) with ((l1 ++ [b]) ++ b :: l2) by (rewrite <- app_assoc; reflexivity).
  replace (Z.to_nat (i + 1)) with (length (l1 ++ [b])) by (rewrite app_length; cbn; lia). rewrite upd_app, <- app_assoc.
  rewrite !List.filter_app. f_equal. cbn. destruct (P a) eqn:PA, (P b) eqn:PB; try reflexivity.
  specialize (SAME a b PA PB). lia.
Qed.
End Sort.
