(** * The standard algorithms on lawful iterators *)
From Verif Require Import Prelude Utf8Model TextModel Utf8Spec Utf8Proofs LawfulProofs AlgoModel AlgoSpec.
Require Import ZifyBool ZifyNat.

(** Iterators that walk over [all] but its last element, which need not be readable, and is where the range ends. *)
Record walks (ops : cp_ops) (all : list Z) (pos : nat -> Z) : Prop := {
  wk_deref : forall i c, (S i < length all)%nat -> nth_error all i = Some c -> op_deref ops (pos i) = Ok (c, pos i);
  wk_inc : forall i, (S i < length all)%nat -> op_inc ops (pos i) = Ok (pos (S i));
  wk_dec : forall i, (S i < length all)%nat -> op_dec ops (pos (S i)) = Ok (pos i);
  wk_eq : forall i j, (i < length all)%nat -> (j < length all)%nat -> op_eq ops (pos i) (pos j) = Ok (Nat.eqb i j)
}.
Lemma lawful_walks ops all pos inside : lawful ops all pos inside -> walks ops all pos.
Proof.
  intros L. pose proof (lw_pos _ _ _ _ L) as P. constructor; intros.
  - apply (lw_deref _ _ _ _ L i); [assumption|]. apply P. lia.
  - apply (lw_inc _ _ _ _ L i); [assumption|]. apply P. lia.
  - apply (lw_dec _ _ _ _ L i); auto.
  - apply (lw_eq _ _ _ _ L i j); auto.
Qed.

Section One.
Context (ops : cp_ops) (all : list Z) (pos : nat -> Z).
Context (L : walks ops all pos).

Lemma eq_at i j : (i < length all)%nat -> (j < length all)%nat -> op_eq ops (pos i) (pos j) = Ok (Nat.eqb i j).
Proof. apply (wk_eq _ _ _ L). Qed.
Lemma neq_at i j : (i < length all)%nat -> (j < length all)%nat -> op_neq ops (pos i) (pos j) = Ok (negb (Nat.eqb i j)).
Proof. intros Hi Hj. unfold op_neq. rewrite eq_at by assumption. reflexivity. Qed.
Lemma inc_at i : (S i < length all)%nat -> op_inc ops (pos i) = Ok (pos (S i)).
Proof. apply (wk_inc _ _ _ L). Qed.
Lemma dec_at i : (S i < length all)%nat -> op_dec ops (pos (S i)) = Ok (pos i).
Proof. apply (wk_dec _ _ _ L). Qed.
Lemma deref_at i c : nth_error all i = Some c -> (S i < length all)%nat -> op_deref ops (pos i) = Ok (c, pos i).
Proof. intros. apply (wk_deref _ _ _ L); assumption. Qed.

Lemma distance_at n : forall i j fuel k, (j - i = n)%nat -> (i <= j < length all)%nat -> (n < fuel)%nat -> is_int k ->
  distance_loop fuel ops (pos i) (pos j) k =
  if k + Z.of_nat n <=? int_max then Ok (k + Z.of_nat n) else UB IntOverflow.
Proof.
  induction n as [|n IH]; intros i j fuel k Hn Hij Hf K; (destruct fuel as [|fuel]; [lia|]); cbn [distance_loop];
    rewrite neq_at by lia; cbn [bind].
  - replace j with i by lia. rewrite Nat.eqb_refl. cbn [negb]. unfold is_int in K. destruct (Z.leb_spec (k + Z.of_nat 0) int_max); [f_equal|]; lia.
  - destruct (Nat.eqb_spec i j); [lia|]. cbn [negb]. rewrite inc_at by lia. cbn [bind]. unfold int_add.
    unfold is_int, int_min, int_max in *.
    destruct ((-2147483648 <=? k + 1) && (k + 1 <=? 2147483647)) eqn:E; cbn [bind].
    + rewrite (IH (S i) j) by lia. replace (k + 1 + Z.of_nat n) with (k + Z.of_nat (S n)) by lia. reflexivity.
    + destruct (Z.leb_spec (k + Z.of_nat (S n)) 2147483647); [lia|reflexivity].
Qed.
Lemma advance_up_at n : forall i, (i + n < length all)%nat -> advance_up n ops (pos i) = Ok (pos (i + n)%nat).
Proof.
  induction n as [|n IH]; intros i Hi; cbn [advance_up]; [rewrite Nat.add_0_r; reflexivity|].
  rewrite inc_at by lia. cbn [bind]. rewrite IH by lia. do 2 f_equal. lia.
Qed.
Lemma advance_down_at n : forall i, (n <= i < length all)%nat -> advance_down n ops (pos i) = Ok (pos (i - n)%nat).
Proof.
  induction n as [|n IH]; intros i Hi; cbn [advance_down]; [rewrite Nat.sub_0_r; reflexivity|].
  destruct i as [|i]; [lia|]. rewrite dec_at by lia. cbn [bind]. rewrite IH by lia. reflexivity.
Qed.
Lemma advance_at i n : (i < length all)%nat -> 0 <= Z.of_nat i + n < Z.of_nat (length all) ->
  std_advance ops (pos i) n = Ok (pos (Z.to_nat (Z.of_nat i + n))).
Proof.
  intros Hi Hn. unfold std_advance. destruct (Z.gtb_spec n 0).
  - rewrite advance_up_at by lia. do 2 f_equal. lia.
  - rewrite advance_down_at by lia. do 2 f_equal. lia.
Qed.

(** The index of the first element with the property. *)
Fixpoint find_index (pred : Z -> bool) (t : list Z) : nat :=
  match t with [] => O | x :: t => if pred x then O else S (find_index pred t) end.
Lemma find_at pred n : forall i j fuel, (j - i = n)%nat -> (i <= j < length all)%nat -> (n < fuel)%nat ->
  std_find_if fuel ops pred (pos i) (pos j) = Ok (pos (i + find_index pred (sub all i j))%nat).
Proof.
  induction n as [|n IH]; intros i j fuel Hn Hij Hf; (destruct fuel as [|fuel]; [lia|]); cbn [std_find_if];
    rewrite neq_at by lia; cbn [bind].
  - replace j with i by lia. rewrite Nat.eqb_refl, sub_nil. cbn [negb find_index]. rewrite Nat.add_0_r. reflexivity.
  - destruct (Nat.eqb_spec i j); [lia|]. cbn [negb]. destruct (nth_lt_some all i ltac:(lia)) as [c E].
    unfold at_iter. rewrite (deref_at i c E ltac:(lia)). cbn [bind]. rewrite (sub_cons all i j c) by (assumption || lia). cbn [find_index].
    destruct (pred c); [rewrite Nat.add_0_r; reflexivity|]. rewrite inc_at by lia. cbn [bind]. rewrite (IH (S i) j) by lia.
    do 2 f_equal. lia.
Qed.
Lemma count_at pred n : forall i j fuel k, (j - i = n)%nat -> (i <= j < length all)%nat -> (n < fuel)%nat ->
  0 <= k -> k + zlen (List.filter pred (sub all i j)) <= int_max ->
  count_loop fuel ops pred (pos i) (pos j) k = Ok (k + zlen (List.filter pred (sub all i j))).
Proof.
  induction n as [|n IH]; intros i j fuel k Hn Hij Hf K B; (destruct fuel as [|fuel]; [lia|]); cbn [count_loop];
    rewrite neq_at by lia; cbn [bind].
  - replace j with i by lia. rewrite Nat.eqb_refl, sub_nil. cbn [negb List.filter]. unfold zlen. cbn. f_equal. lia.
  - destruct (Nat.eqb_spec i j); [lia|]. cbn [negb]. destruct (nth_lt_some all i ltac:(lia)) as [c E].
    unfold at_iter. rewrite (deref_at i c E ltac:(lia)). cbn [bind]. rewrite (sub_cons all i j c) in B |- * by (assumption || lia).
    cbn [List.filter] in *. destruct (pred c); cbn [bind].
    + unfold int_add. unfold zlen in B |- *. cbn [length] in B |- *. unfold int_min, int_max in *.
      destruct ((-2147483648 <=? k + 1) && (k + 1 <=? 2147483647)) eqn:Q; [|lia]. cbn [bind]. rewrite inc_at by lia. cbn [bind].
      rewrite (IH (S i) j) by (unfold zlen, int_max; lia). unfold zlen. f_equal. lia.
    + rewrite inc_at by lia. cbn [bind]. rewrite (IH (S i) j) by lia. reflexivity.
Qed.
Lemma reverse_copy_at n : forall i j fuel r, (j - i = n)%nat -> (i <= j < length all)%nat -> (n < fuel)%nat ->
  std_reverse_copy fuel ops (pos i) (pos j) r = Ok (r ++ rev (sub all i j)).
Proof.
  induction n as [|n IH]; intros i j fuel r Hn Hij Hf; (destruct fuel as [|fuel]; [lia|]); cbn [std_reverse_copy];
    rewrite neq_at by lia; cbn [bind].
  - replace j with i by lia. rewrite Nat.eqb_refl, sub_nil. cbn [negb rev]. rewrite app_nil_r. reflexivity.
  - destruct (Nat.eqb_spec i j); [lia|]. cbn [negb]. destruct j as [|j]; [lia|]. rewrite dec_at by lia. cbn [bind].
    destruct (nth_lt_some all j ltac:(lia)) as [c E]. rewrite (deref_at j c E ltac:(lia)). cbn [bind].
    rewrite (IH i j) by lia. rewrite (sub_snoc all i j c) by (assumption || lia). rewrite rev_app_distr, <- app_assoc. reflexivity.
Qed.
End One.

Lemma find_index_spec pred t : first_with pred t (find_index pred t).
Proof.
  unfold first_with. induction t as [|x t [IH1 IH2]]; cbn [find_index].
  - split; [intros [|i] x; discriminate|right; reflexivity].
  - destruct (pred x) eqn:E.
    + split; [intros; lia|]. left. exists x. split; [reflexivity|assumption].
    + split.
      * intros [|i] y Y Hi; [injection Y as <-; assumption|]. apply (IH1 i y Y). lia.
      * destruct IH2 as [IH2| ->]; [left; exact IH2|right; reflexivity].
Qed.
Lemma first_with_unique pred t k k' : first_with pred t k -> first_with pred t k' -> k = k'.
Proof.
  intros [A1 A2] [B1 B2].
  assert (W : forall k k', (forall i x, nth_error t i = Some x -> (i < k')%nat -> pred x = false) ->
     ((exists x, nth_error t k = Some x /\ pred x = true) \/ k = length t) ->
     ((exists x, nth_error t k' = Some x /\ pred x = true) \/ k' = length t) -> (k < k')%nat -> False).
  { intros a b Q [(x & X & Px)|Ha] Hb Hlt; [rewrite (Q a x X Hlt) in Px; discriminate|].
    destruct Hb as [(y & Y & _)|Hb]; [|lia]. assert (b < length t)%nat by (apply nth_error_Some; congruence). lia. }
  destruct (Nat.lt_trichotomy k k') as [H|[H|H]]; [exfalso; apply (W k k'); assumption|assumption|exfalso; apply (W k' k); assumption].
Qed.

Section Two.
Context (o1 o2 : cp_ops) (a1 a2 : list Z) (p1 p2 : nat -> Z).
Context (L1 : walks o1 a1 p1) (L2 : walks o2 a2 p2).

Lemma equal_at n : forall i j k fuel, (j - i = n)%nat -> (i <= j < length a1)%nat -> (k + n < length a2)%nat -> (n < fuel)%nat ->
  exists b, std_equal fuel o1 o2 (p1 i) (p1 j) (p2 k) = Ok b /\ (b = true <-> sub a1 i j = sub a2 k (k + n)).
Proof.
  induction n as [|n IH]; intros i j k fuel Hn Hij Hk Hf; (destruct fuel as [|fuel]; [lia|]); cbn [std_equal];
    rewrite (neq_at _ _ _ L1) by lia; cbn [bind].
  - replace j with i by lia. rewrite Nat.eqb_refl, sub_nil, Nat.add_0_r, sub_nil. exists true. split; [reflexivity|tauto].
  - destruct (Nat.eqb_spec i j); [lia|]. cbn [negb].
    destruct (nth_lt_some a1 i ltac:(lia)) as [c E]. destruct (nth_lt_some a2 k ltac:(lia)) as [d E'].
    rewrite (deref_at _ _ _ L1 i c E ltac:(lia)), (deref_at _ _ _ L2 k d E' ltac:(lia)). cbn [bind].
    rewrite (sub_cons a1 i j c), (sub_cons a2 k (k + S n) d) by (assumption || lia).
    destruct (Z.eqb_spec c d) as [<-|N].
    + rewrite (inc_at _ _ _ L1), (inc_at _ _ _ L2) by lia. cbn [bind].
      destruct (IH (S i) j (S k) fuel ltac:(lia) ltac:(lia) ltac:(lia) ltac:(lia)) as (b & Eb & Hb).
      exists b. split; [exact Eb|]. rewrite Hb. replace (S k + n)%nat with (k + S n)%nat by lia.
      split; [intros ->; reflexivity|]. intros Q. injection Q as ->. reflexivity.
    + exists false. split; [reflexivity|]. split; [discriminate|]. intros Q. injection Q as Q _. contradiction.
Qed.
Lemma lex_at n : forall i j k l fuel, (j - i = n)%nat -> (i <= j < length a1)%nat -> (k <= l < length a2)%nat -> (n < fuel)%nat ->
  exists b, std_lexicographical_compare fuel o1 o2 (p1 i) (p1 j) (p2 k) (p2 l) = Ok b /\ (b = true <-> lex_less (sub a1 i j) (sub a2 k l)).
Proof.
  induction n as [|n IH]; intros i j k l fuel Hn Hij Hk Hf; (destruct fuel as [|fuel]; [lia|]); cbn [std_lexicographical_compare];
    rewrite (neq_at _ _ _ L1) by lia; cbn [bind].
  - replace j with i by lia. rewrite (eq_at _ _ _ L1) by lia. rewrite Nat.eqb_refl, sub_nil. cbn [negb bind].
    rewrite (neq_at _ _ _ L2) by lia. eexists. split; [reflexivity|]. destruct (Nat.eqb_spec k l) as [->|N]; cbn [negb].
    + rewrite sub_nil. cbn. split; [discriminate|contradiction].
    + destruct (nth_lt_some a2 k ltac:(lia)) as [d E']. rewrite (sub_cons a2 k l d) by (assumption || lia). cbn. tauto.
  - destruct (Nat.eqb_spec i j); [lia|]. cbn [negb]. rewrite (neq_at _ _ _ L2) by lia. cbn [bind].
    destruct (nth_lt_some a1 i ltac:(lia)) as [c E]. rewrite (sub_cons a1 i j c) by (assumption || lia).
    destruct (Nat.eqb_spec k l) as [->|N]; cbn [negb].
    + rewrite (eq_at _ _ _ L1) by lia. destruct (Nat.eqb_spec i j); [lia|]. cbn [bind]. exists false. split; [reflexivity|].
      rewrite sub_nil. cbn. split; [discriminate|contradiction].
    + destruct (nth_lt_some a2 k ltac:(lia)) as [d E']. rewrite (sub_cons a2 k l d) by (assumption || lia).
      rewrite (deref_at _ _ _ L1 i c E ltac:(lia)), (deref_at _ _ _ L2 k d E' ltac:(lia)). cbn [bind lex_less].
      destruct (Z.ltb_spec c d); [exists true; split; [reflexivity|]; tauto|].
      destruct (Z.ltb_spec d c); [exists false; split; [reflexivity|]; split; [discriminate|lia]|].
      assert (c = d) by lia. subst d. rewrite (inc_at _ _ _ L1), (inc_at _ _ _ L2) by lia. cbn [bind].
      destruct (IH (S i) j (S k) l fuel ltac:(lia) ltac:(lia) ltac:(lia) ltac:(lia)) as (b & Eb & Hb).
      exists b. split; [exact Eb|]. rewrite Hb. split; [intros X; right; split; [reflexivity|assumption]|]. intros [X|[_ X]]; [lia|assumption].
Qed.

(** ** search *)
Fixpoint prefixb (y x : list Z) : bool :=
  match y, x with
  | [], _ => true
  | _ :: _, [] => false
  | b :: y, a :: x => (a =? b) && prefixb y x
  end.
Fixpoint search_index (x y : list Z) : nat :=
  if prefixb y x then O else match x with [] => O | _ :: x' => S (search_index x' y) end.
Lemma prefixb_iff y : forall x, prefixb y x = true <-> exists z, x = y ++ z.
Proof.
  induction y as [|b y IH]; intros x; cbn [prefixb app]; [split; [intros _; exists x; reflexivity|reflexivity]|].
  destruct x as [|a x]; [split; [discriminate|intros [z Z]; discriminate]|].
  rewrite andb_true_iff, IH, Z.eqb_eq. split.
  - intros [-> [z ->]]. exists z. reflexivity.
  - intros [z Z]. injection Z as -> ->. split; [reflexivity|]. exists z. reflexivity.
Qed.
Lemma prefixb_length y x : prefixb y x = true -> (length y <= length x)%nat.
Proof. intros H. apply prefixb_iff in H. destruct H as [z ->]. rewrite app_length. lia. Qed.
Lemma search_index_short y : forall x, (length x < length y)%nat -> search_index x y = length x.
Proof.
  induction x as [|a x IH]; intros H; cbn [search_index]; destruct (prefixb y _) eqn:E; try (apply prefixb_length in E; cbn in *; lia).
  - reflexivity.
  - rewrite IH by (cbn in H; lia). reflexivity.
Qed.
Lemma search_index_skip v w x : search_index x (v :: w) =
  (find_index (fun c => (c =? v)%Z) x + search_index (skipn (find_index (fun c => (c =? v)%Z) x) x) (v :: w))%nat.
Proof.
  induction x as [|a x IH]; [reflexivity|]. cbn [find_index]. destruct (Z.eqb_spec a v) as [->|N]; [reflexivity|].
  cbn [search_index prefixb]. destruct (Z.eqb_spec a v); [contradiction|]. cbn [andb skipn]. rewrite IH at 1. reflexivity.
Qed.
Lemma sub_skip cs i j k : (i + k <= j <= length cs)%nat -> skipn k (sub cs i j) = sub cs (i + k) j.
Proof.
  intros H. rewrite (sub_app cs i (i + k) j) by lia. rewrite skipn_app, sub_length by lia.
  rewrite skipn_all2 by (rewrite sub_length; lia). replace (k - (i + k - i))%nat with O by lia. reflexivity.
Qed.
Lemma find_index_le pred t : (find_index pred t <= length t)%nat.
Proof. induction t as [|x t IH]; cbn [find_index length]; [lia|]. destruct (pred x); lia. Qed.

Lemma match_at n : forall i m j q l fuel, (j - m = n)%nat -> (i < m < j)%nat -> (j < length a1)%nat -> (q < l < length a2)%nat -> (n <= fuel)%nat ->
  exists r, search_match fuel o1 o2 (p1 i) (p1 m) (p1 j) (p2 q) (p2 l) = Ok r /\
    match r with
    | Some z => (z = p1 i /\ prefixb (sub a2 q l) (sub a1 m j) = true) \/ (z = p1 j /\ (length (sub a1 m j) < length (sub a2 q l))%nat)
    | None => prefixb (sub a2 q l) (sub a1 m j) = false
    end.
Proof.
  induction n as [|n IH]; intros i m j q l fuel Hn Hm Hj Hq Hf; [lia|]. destruct fuel as [|fuel]; [lia|]. cbn [search_match].
  destruct (nth_lt_some a1 m ltac:(lia)) as [c E]. destruct (nth_lt_some a2 q ltac:(lia)) as [d E'].
  rewrite (deref_at _ _ _ L1 m c E ltac:(lia)), (deref_at _ _ _ L2 q d E' ltac:(lia)). cbn [bind].
  rewrite (sub_cons a1 m j c), (sub_cons a2 q l d) by (assumption || lia). cbn [prefixb].
  destruct (Z.eqb_spec c d) as [<-|N]; [|exists None; split; reflexivity]. cbn [andb].
  rewrite (inc_at _ _ _ L2) by lia. cbn [bind]. rewrite (eq_at _ _ _ L2) by lia. cbn [bind].
  destruct (Nat.eqb_spec (S q) l) as [<-|N2].
  - exists (Some (p1 i)). split; [reflexivity|]. left. split; [reflexivity|]. rewrite sub_nil. reflexivity.
  - rewrite (inc_at _ _ _ L1) by lia. cbn [bind]. rewrite (eq_at _ _ _ L1) by lia. cbn [bind].
    destruct (Nat.eqb_spec (S m) j) as [<-|N1].
    + exists (Some (p1 (S m))). split; [reflexivity|]. right. split; [reflexivity|]. cbn [length]. rewrite sub_nil, sub_length by lia. cbn. lia.
    + destruct (IH i (S m) j (S q) l fuel ltac:(lia) ltac:(lia) ltac:(lia) ltac:(lia) ltac:(lia)) as (r & Er & Hr).
      exists r. split; [exact Er|]. destruct r; [|exact Hr]. destruct Hr as [Hr|[Hr1 Hr2]]; [left; exact Hr|right]. split; [exact Hr1|]. cbn [length]. lia.
Qed.
Lemma search_loop_at k l : (S k < l < length a2)%nat -> forall n i j fuel, (j - i <= n)%nat -> (i <= j < length a1)%nat -> (n < fuel)%nat ->
  search_loop fuel o1 o2 (p1 i) (p1 j) (p2 k) (p2 (S k)) (p2 l) = Ok (p1 (i + search_index (sub a1 i j) (sub a2 k l))%nat).
Proof.
  intros Hk. destruct (nth_lt_some a2 k ltac:(lia)) as [v V]. rewrite (sub_cons a2 k l v) by (assumption || lia).
  induction n as [|n IH]; intros i j fuel Hn Hij Hf; (destruct fuel as [|fuel]; [lia|]); cbn [search_loop];
    rewrite (deref_at _ _ _ L2 k v V ltac:(lia)); cbn [bind];
    rewrite (find_at _ _ _ L1 _ (j - i)) by lia; cbn [bind];
    set (f := find_index (fun c => c =? v) (sub a1 i j));
    assert (F : (f <= j - i)%nat) by (unfold f; rewrite <- (sub_length a1 i j) by lia; apply find_index_le);
    rewrite (eq_at _ _ _ L1) by lia; cbn [bind];
    rewrite search_index_skip; fold f; rewrite sub_skip by lia; (destruct (Nat.eqb_spec (i + f) j) as [Ej|Nj];
      [rewrite Ej, sub_nil; cbn [search_index prefixb]; do 2 f_equal; lia|]); [lia|].
  rewrite (inc_at _ _ _ L1) by lia. cbn [bind]. rewrite (eq_at _ _ _ L1) by lia. cbn [bind].
  assert (C : nth_error a1 (i + f) = Some v).
  { destruct (find_index_spec (fun c => c =? v) (sub a1 i j)) as [_ [(x & X & Xv)|Q]].
    - fold f in X. rewrite nth_error_sub in X by lia. rewrite X. f_equal. lia.
    - fold f in Q. rewrite sub_length in Q by lia. lia. }
  rewrite (sub_cons a1 (i + f) j v) by (assumption || lia).
  destruct (Nat.eqb_spec (S (i + f)) j) as [Ej|Nj'].
  - rewrite Ej, sub_nil. rewrite search_index_short by (cbn [length]; rewrite sub_length; lia). cbn [length]. do 2 f_equal. lia.
  - destruct (match_at (j - S (i + f)) (i + f) (S (i + f)) j (S k) l (S fuel)) as (r & Er & Hr); try lia.
    rewrite Er. cbn [bind]. destruct r as [r|].
    + destruct Hr as [[-> Hr]|[-> Hr]].
      * cbn [search_index prefixb]. rewrite Z.eqb_refl, Hr. cbn [andb]. do 2 f_equal. lia.
      * rewrite search_index_short by (cbn [length]; lia). cbn [length]. rewrite sub_length by lia. do 2 f_equal. lia.
    + cbn [bind]. rewrite IH by lia.
      cbn [search_index prefixb]. rewrite Z.eqb_refl, Hr. cbn [andb]. do 2 f_equal. lia.
Qed.
Lemma search_at i j k l fuel : (i <= j < length a1)%nat -> (k <= l < length a2)%nat -> (j - i < fuel)%nat ->
  std_search fuel o1 o2 (p1 i) (p1 j) (p2 k) (p2 l) = Ok (p1 (i + search_index (sub a1 i j) (sub a2 k l))%nat).
Proof.
  intros Hij Hkl Hf. unfold std_search. rewrite (eq_at _ _ _ L1) by lia. cbn [bind]. destruct (Nat.eqb_spec i j) as [<-|N].
  - rewrite sub_nil. cbn [search_index]. destruct (prefixb _ _); rewrite Nat.add_0_r; reflexivity.
  - rewrite (eq_at _ _ _ L2) by lia. cbn [bind]. destruct (Nat.eqb_spec k l) as [<-|N2].
    + rewrite sub_nil. destruct (sub a1 i j); cbn [search_index prefixb]; rewrite Nat.add_0_r; reflexivity.
    + rewrite (inc_at _ _ _ L2) by lia. cbn [bind]. rewrite (eq_at _ _ _ L2) by lia. cbn [bind].
      destruct (Nat.eqb_spec (S k) l) as [<-|N3].
      * destruct (nth_lt_some a2 k ltac:(lia)) as [v V]. rewrite (deref_at _ _ _ L2 k v V ltac:(lia)). cbn [bind].
        rewrite (sub_cons a2 k (S k) v), sub_nil by (assumption || lia).
        rewrite (find_at _ _ _ L1 _ (j - i)) by lia. do 3 f_equal.
        clear. induction (sub a1 i j) as [|x t IH]; [reflexivity|]. cbn [find_index search_index prefixb].
        destruct (x =? v); cbn [andb]; [reflexivity|]. rewrite IH. reflexivity.
      * apply (search_loop_at k l ltac:(lia) (j - i)); lia.
Qed.
End Two.

Lemma search_index_spec x y :
  first_occurrence x y (search_index x y) \/ (search_index x y = length x /\ forall k, ~ occurs_at x y k).
Proof.
  unfold first_occurrence, occurs_at. induction x as [|a x IH]; cbn [search_index].
  - destruct (prefixb y []) eqn:E.
    + left. apply prefixb_iff in E. destruct E as [z E]. split; [exists [], z; split; [assumption|reflexivity]|]. intros; lia.
    + right. split; [reflexivity|]. intros k (u & w & Q & _). destruct u; [|discriminate]. cbn in Q.
      assert (prefixb y [] = true) by (apply prefixb_iff; exists w; assumption). congruence.
  - destruct (prefixb y (a :: x)) eqn:E.
    + left. apply prefixb_iff in E. destruct E as [z E]. split; [exists [], z; split; [assumption|reflexivity]|]. intros; lia.
    + assert (N : forall u w, u ++ y ++ w = a :: x -> exists u', u = a :: u' /\ x = u' ++ y ++ w).
      { intros [|b u] w Q; cbn in Q.
        - assert (prefixb y (a :: x) = true) by (apply prefixb_iff; exists w; symmetry; assumption). congruence.
        - injection Q as -> <-. exists u. auto. }
      destruct IH as [[(u & w & Q & Lu) F]|[Lx F]].
      * left. split; [exists (a :: u), w; split; [rewrite Q; reflexivity|cbn; rewrite Lu; reflexivity]|].
        intros k' Hk (u' & w' & Q' & Lu'). destruct (N u' w' (eq_sym Q')) as (u'' & -> & Qx). cbn in Lu'.
        apply (F (length u'')); [lia|]. exists u'', w'. auto.
      * right. split; [rewrite Lx; reflexivity|]. intros k (u & w & Q & Lu). destruct (N u w (eq_sym Q)) as (u' & -> & Qx).
        apply (F (length u')). exists u', w. auto.
Qed.
