(** * More standard algorithms on lawful iterators *)
From Verif Require Import Prelude Utf8Model TextModel Utf8Spec Utf8Proofs LawfulProofs AlgoModel AlgoSpec AlgoProofs Algo2Model Algo2Spec.
Require Import ZifyBool ZifyNat.

Lemma common_cons c x y k : common_beginning x y k -> common_beginning (c :: x) (c :: y) (S k).
Proof.
  intros (A & B & C & D). unfold common_beginning. cbn [length firstn nth_error]. repeat split; [lia|lia|congruence|exact D].
Qed.
Lemma common_beginning_unique x : forall y k k', common_beginning x y k -> common_beginning x y k' -> k = k'.
Proof.
  induction x as [|c x IH]; intros y k k' (A & B & C & D) (A' & B' & C' & D'); [cbn in *; lia|].
  destruct y as [|d y]; [cbn in *; lia|].
  destruct k as [|k], k' as [|k']; [reflexivity| | |].
  - exfalso. cbn in C'. injection C' as Q _. exact (D c d eq_refl eq_refl Q).
  - exfalso. cbn in C. injection C as Q _. exact (D' c d eq_refl eq_refl Q).
  - f_equal. cbn in *. apply (IH y); repeat split; (lia || congruence || assumption).
Qed.
Lemma repeated_cons c d t i : repeated_at (c :: d :: t) (S i) <-> repeated_at (d :: t) i.
Proof. unfold repeated_at. cbn [nth_error]. tauto. Qed.
Lemma first_repeated_cons c d t k : c <> d -> first_repeated (d :: t) k -> first_repeated (c :: d :: t) (S k).
Proof.
  intros N [A B]. split.
  - intros [|i] Hi (e & E & E'); [cbn in E, E'; congruence|]. apply (A i); [lia|]. apply (repeated_cons c). exists e. split; assumption.
  - destruct B as [B| ->]; [left; apply repeated_cons; exact B|right; reflexivity].
Qed.
Lemma repeated_lt t k : repeated_at t k -> (k < length t)%nat.
Proof. intros (c & E & _). apply nth_error_Some. congruence. Qed.
Lemma first_repeated_unique t k k' : first_repeated t k -> first_repeated t k' -> k = k'.
Proof.
  intros [A1 A2] [B1 B2]. destruct (Nat.lt_trichotomy k k') as [H|[H|H]]; [|assumption|].
  - exfalso. destruct A2 as [A2| ->]; [exact (B1 k H A2)|]. destruct B2 as [B2| ->]; [apply repeated_lt in B2|]; lia.
  - exfalso. destruct B2 as [B2| ->]; [exact (A1 k' H B2)|]. destruct A2 as [A2| ->]; [apply repeated_lt in A2|]; lia.
Qed.
Lemma without_repetitions_unique t u : without_repetitions t u -> forall u', without_repetitions t u' -> u = u'.
Proof.
  induction 1 as [|c|c t u H IH|c d t u N H IH]; intros u' H'; inversion H'; subst; try reflexivity; try congruence; auto.
  f_equal. apply IH. assumption.
Qed.

Section One.
Context (ops : cp_ops) (all : list Z) (pos : nat -> Z).
Context (L : walks ops all pos).
Lemma adjacent_loop_at n : forall i j fuel, (j - i = n)%nat -> (i < j < length all)%nat -> (n < fuel)%nat ->
  exists k, adjacent_loop fuel ops (pos i) (pos i) (pos j) = Ok (pos (i + k)%nat) /\ first_repeated (sub all i j) k.
Proof.
  induction n as [|n IH]; intros i j fuel Hn Hij Hf; [lia|]. destruct fuel as [|fuel]; [lia|]. cbn [adjacent_loop].
  rewrite (inc_at _ _ _ L) by lia. cbn [bind]. rewrite (neq_at _ _ _ L) by lia. cbn [bind].
  destruct (nth_lt_some all i ltac:(lia)) as [c E]. rewrite (sub_cons all i j c) by (assumption || lia).
  destruct (Nat.eqb_spec (S i) j) as [Q|Q]; cbn [negb].
  - subst j. rewrite sub_nil. exists 1%nat. split; [do 2 f_equal; lia|]. split; [|right; reflexivity].
    intros [|k] Hk; [|lia]. intros (d & _ & X). discriminate.
  - destruct (nth_lt_some all (S i) ltac:(lia)) as [d E']. rewrite (sub_cons all (S i) j d) by (assumption || lia).
    unfold equal_iters. rewrite (deref_at _ _ _ L i c E) by lia. cbn [bind]. rewrite (deref_at _ _ _ L (S i) d E') by lia. cbn [bind].
    destruct (Z.eqb_spec c d) as [<-|N].
    + exists 0%nat. split; [do 2 f_equal; lia|]. split; [intros k Hk; lia|left; exists c; split; reflexivity].
    + destruct (IH (S i) j fuel ltac:(lia) ltac:(lia) ltac:(lia)) as (k & R & F).
      rewrite (sub_cons all (S i) j d) in F by (assumption || lia).
      exists (S k). split; [rewrite R; do 2 f_equal; lia|]. apply first_repeated_cons; assumption.
Qed.
Lemma adjacent_at i j fuel : (i <= j < length all)%nat -> (j - i < fuel)%nat ->
  exists k, std_adjacent_find fuel ops (pos i) (pos j) = Ok (pos (i + k)%nat) /\ first_repeated (sub all i j) k.
Proof.
  intros Hij Hf. unfold std_adjacent_find. rewrite (eq_at _ _ _ L) by lia. cbn [bind]. destruct (Nat.eqb_spec i j) as [<-|N].
  - exists 0%nat. rewrite sub_nil, Nat.add_0_r. split; [reflexivity|]. split; [intros k Hk; lia|right; reflexivity].
  - apply (adjacent_loop_at (j - i)); lia.
Qed.
Lemma copy_if_at pred n : forall i j fuel r, (j - i = n)%nat -> (i <= j < length all)%nat -> (n < fuel)%nat ->
  std_copy_if fuel ops pred (pos i) (pos j) r = Ok (r ++ List.filter pred (sub all i j)).
Proof.
  induction n as [|n IH]; intros i j fuel r Hn Hij Hf; (destruct fuel as [|fuel]; [lia|]); cbn [std_copy_if];
    rewrite (neq_at _ _ _ L) by lia; cbn [bind].
  - replace j with i by lia. rewrite Nat.eqb_refl, sub_nil. cbn. rewrite app_nil_r. reflexivity.
  - destruct (Nat.eqb_spec i j); [lia|]. cbn [negb]. destruct (nth_lt_some all i ltac:(lia)) as [c E].
    rewrite (deref_at _ _ _ L i c E) by lia. cbn [bind]. rewrite (sub_cons all i j c) by (assumption || lia). cbn [List.filter].
    destruct (pred c); cbn [bind].
    + rewrite (deref_at _ _ _ L i c E) by lia. cbn [bind]. rewrite (inc_at _ _ _ L) by lia. cbn [bind].
      rewrite (IH (S i) j) by lia. rewrite <- app_assoc. reflexivity.
    + rewrite (inc_at _ _ _ L) by lia. cbn [bind]. apply IH; lia.
Qed.
(** [first] is number [h], where the last element kept is; it is the same as the element before [i]. *)
Lemma unique_loop_at n : forall h i j fuel r c, (j - i = n)%nat -> (h <= i < j)%nat -> (j < length all)%nat -> (n < fuel)%nat ->
  nth_error all h = Some c -> nth_error all i = Some c ->
  exists u, unique_copy_loop fuel ops (pos h) (pos i) (pos j) r = Ok (r ++ u) /\ without_repetitions (sub all i j) (c :: u).
Proof.
  induction n as [|n IH]; intros h i j fuel r c Hn Hij Hj Hf Eh E; [lia|]. destruct fuel as [|fuel]; [lia|]. cbn [unique_copy_loop].
  rewrite (inc_at _ _ _ L) by lia. cbn [bind]. rewrite (neq_at _ _ _ L) by lia. cbn [bind].
  rewrite (sub_cons all i j c) by (assumption || lia).
  destruct (Nat.eqb_spec (S i) j) as [Q|Q]; cbn [negb].
  - subst j. rewrite sub_nil. exists []. rewrite app_nil_r. split; [reflexivity|constructor].
  - destruct (nth_lt_some all (S i) ltac:(lia)) as [d E'].
    unfold equal_iters. rewrite (deref_at _ _ _ L h c Eh) by lia. cbn [bind]. rewrite (deref_at _ _ _ L (S i) d E') by lia. cbn [bind].
    destruct (Z.eqb_spec c d) as [<-|N].
    + destruct (IH h (S i) j fuel r c ltac:(lia) ltac:(lia) Hj ltac:(lia) Eh E') as (u & R & W). exists u. split; [exact R|].
      rewrite (sub_cons all (S i) j c) in W |- * by (assumption || lia). constructor. exact W.
    + destruct (IH (S i) (S i) j fuel (r ++ [d]) d ltac:(lia) ltac:(lia) Hj ltac:(lia) E' E') as (u & R & W).
      cbn [bind]. exists (d :: u). split; [rewrite R, <- app_assoc; reflexivity|].
      rewrite (sub_cons all (S i) j d) in W |- * by (assumption || lia). constructor; assumption.
Qed.
Lemma unique_copy_at i j fuel r : (i <= j < length all)%nat -> (j - i < fuel)%nat ->
  exists u, std_unique_copy fuel ops (pos i) (pos j) r = Ok (r ++ u) /\ without_repetitions (sub all i j) u.
Proof.
  intros Hij Hf. unfold std_unique_copy. rewrite (eq_at _ _ _ L) by lia. cbn [bind]. destruct (Nat.eqb_spec i j) as [<-|N].
  - exists []. rewrite sub_nil, app_nil_r. split; [reflexivity|constructor].
  - destruct (nth_lt_some all i ltac:(lia)) as [c E]. rewrite (deref_at _ _ _ L i c E) by lia. cbn [bind].
    destruct (unique_loop_at (j - i) i i j fuel (r ++ [c]) c ltac:(lia) ltac:(lia) ltac:(lia) Hf E E) as (u & R & W).
    exists (c :: u). split; [rewrite R, <- app_assoc; reflexivity|exact W].
Qed.
End One.

Section Two.
Context (o1 o2 : cp_ops) (a1 a2 : list Z) (p1 p2 : nat -> Z).
Context (L1 : walks o1 a1 p1) (L2 : walks o2 a2 p2).
Lemma mismatch_at n : forall i j k l fuel, (j - i = n)%nat -> (i <= j < length a1)%nat -> (k <= l < length a2)%nat -> (n < fuel)%nat ->
  exists m, std_mismatch fuel o1 o2 (p1 i) (p1 j) (p2 k) (p2 l) = Ok (p1 (i + m)%nat, p2 (k + m)%nat) /\
    common_beginning (sub a1 i j) (sub a2 k l) m.
Proof.
  assert (Z0 : forall x y : list Z, x = [] \/ y = [] -> common_beginning x y 0).
  { intros x y H. repeat split; [lia|lia|]. intros a b A B. destruct H as [-> | ->]; discriminate. }
  induction n as [|n IH]; intros i j k l fuel Hn Hij Hk Hf; (destruct fuel as [|fuel]; [lia|]); cbn [std_mismatch];
    rewrite (neq_at _ _ _ L1) by lia; cbn [bind].
  - replace j with i by lia. rewrite Nat.eqb_refl, sub_nil. cbn [negb bind]. exists 0%nat. rewrite !Nat.add_0_r. split; [reflexivity|]. apply Z0. auto.
  - destruct (Nat.eqb_spec i j); [lia|]. cbn [negb]. rewrite (neq_at _ _ _ L2) by lia. cbn [bind].
    destruct (nth_lt_some a1 i ltac:(lia)) as [c E]. rewrite (sub_cons a1 i j c) by (assumption || lia).
    destruct (Nat.eqb_spec k l) as [->|N]; cbn [negb bind].
    + exists 0%nat. rewrite !Nat.add_0_r. split; [reflexivity|]. apply Z0. right. apply sub_nil.
    + destruct (nth_lt_some a2 k ltac:(lia)) as [d E']. rewrite (sub_cons a2 k l d) by (assumption || lia).
      unfold equal_iters. rewrite (deref_at _ _ _ L1 i c E) by lia. cbn [bind]. rewrite (deref_at _ _ _ L2 k d E') by lia. cbn [bind].
      destruct (Z.eqb_spec c d) as [<-|Q].
      * rewrite (inc_at _ _ _ L1), (inc_at _ _ _ L2) by lia. cbn [bind].
        destruct (IH (S i) j (S k) l fuel ltac:(lia) ltac:(lia) ltac:(lia) ltac:(lia)) as (m & R & F).
        exists (S m). split; [rewrite R; do 2 f_equal; f_equal; lia|]. apply common_cons. exact F.
      * exists 0%nat. rewrite !Nat.add_0_r. split; [reflexivity|]. repeat split; [cbn; lia|cbn; lia|].
        intros a b A B. cbn in A, B. congruence.
Qed.
End Two.
