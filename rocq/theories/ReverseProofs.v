(** * Proofs: reverse iterators walk over the reversed text *)
From Verif Require Import Prelude Utf8Model TextModel Utf8Spec TextSpec Utf8Proofs LawfulProofs GraphemeText AlgoModel AlgoSpec AlgoProofs ReverseModel.
Require Import ZifyBool ZifyNat.

Lemma nth_error_rev_end {A} (l : list A) x i : (i < length l)%nat -> nth_error (rev l ++ [x]) i = nth_error l (length l - S i).
Proof.
  intros H. rewrite nth_error_app1 by (rewrite rev_length; exact H). destruct (nth_error l (length l - S i)) as [a|] eqn:E.
  - rewrite (nth_error_nth' _ a) by (rewrite rev_length; exact H). rewrite rev_nth by exact H. f_equal. apply nth_error_nth. exact E.
  - apply nth_error_None in E. lia.
Qed.

Section Reverse.
Context (ops : cp_ops) (cs : list Z) (c : Z) (pos : nat -> Z).
Context (W : walks ops (cs ++ [c]) pos).
Let n := length cs.
Let Ln : length (cs ++ [c]) = S n.
Proof. rewrite app_length. cbn. lia. Qed.
Definition rpos (i : nat) : Z := pos (n - i).

Lemma reversed_walks x : walks (reversed false ops) (rev cs ++ [x]) rpos.
Proof.
  assert (Lr : length (rev cs ++ [x]) = S n) by (rewrite app_length, rev_length; cbn; lia).
  constructor; rewrite Lr; unfold rpos.
  - intros i y Hi E. rewrite nth_error_rev_end in E by lia. fold n in E. cbn [op_deref reversed].
    replace (n - i)%nat with (S (n - S i)) by lia. rewrite (wk_dec _ _ _ W) by lia. cbn [bind].
    rewrite (wk_deref _ _ _ W _ y) by (try rewrite nth_error_app1; assumption || lia). reflexivity.
  - intros i Hi. cbn [op_inc reversed]. replace (n - i)%nat with (S (n - S i)) by lia. apply (wk_dec _ _ _ W). lia.
  - intros i Hi. cbn [op_dec reversed]. rewrite (wk_inc _ _ _ W) by lia. do 2 f_equal. lia.
  - intros i j Hi Hj. cbn [op_eq reversed]. rewrite (wk_eq _ _ _ W) by lia. f_equal.
    destruct (Nat.eqb_spec i j), (Nat.eqb_spec (n - i) (n - j)); try reflexivity; lia.
Qed.

(** Both client loops. *)
Lemma reversed_loops x : forall m i fuel, (n - i = m)%nat -> (i <= n)%nat -> (m < fuel)%nat ->
  iterate_codepoints fuel (reversed false ops) (rpos i) (rpos n) = Ok (sub (rev cs ++ [x]) i n) /\
  iterate_codepoints_for fuel (reversed false ops) (rpos i) (rpos n) = Ok (sub (rev cs ++ [x]) i n).
Proof.
  pose proof (reversed_walks x) as R. assert (Lr : length (rev cs ++ [x]) = S n) by (rewrite app_length, rev_length; cbn; lia).
  induction m as [|m IH]; intros i fuel Hm Hi Hf; (destruct fuel as [|fuel]; [lia|]); cbn [iterate_codepoints iterate_codepoints_for];
    rewrite (neq_at _ _ _ R) by lia; cbn [bind].
  - replace i with n by lia. rewrite Nat.eqb_refl, sub_nil. split; reflexivity.
  - destruct (Nat.eqb_spec i n); [lia|]. cbn [negb]. destruct (nth_lt_some (rev cs ++ [x]) i ltac:(lia)) as [y Y].
    rewrite (sub_cons _ i n y) by (assumption || lia). unfold op_step.
    pose proof (deref_at _ _ _ R i y Y ltac:(lia)) as D. pose proof (inc_at _ _ _ R i ltac:(lia)) as I. cbn [op_inc reversed] in I.
    cbn [op_postinc reversed]. rewrite I. cbn [bind]. rewrite D. cbn [bind]. rewrite I. cbn [bind].
    destruct (IH (Datatypes.S i) fuel ltac:(lia) ltac:(lia) ltac:(lia)) as (-> & ->). split; reflexivity.
Qed.
Lemma bases_loop t : forall m fuel, (m <= n)%nat -> (m < fuel)%nat -> iterate_bases fuel (reversed t ops) ops (pos m) (pos 0%nat) = Ok (rev (firstn m cs)).
Proof.
  induction m as [|m IH]; intros fuel Hm Hf; (destruct fuel as [|fuel]; [lia|]); cbn [iterate_bases]; unfold op_neq at 1; cbn [op_eq reversed];
    rewrite (wk_eq _ _ _ W) by lia; cbn [bind negb Nat.eqb]; [reflexivity|].
  rewrite (wk_dec _ _ _ W) by lia. cbn [bind]. destruct (nth_lt_some cs m ltac:(lia)) as [y Y].
  rewrite (wk_deref _ _ _ W m y) by (try rewrite nth_error_app1; assumption || lia). cbn [bind op_inc reversed].
  rewrite (wk_dec _ _ _ W) by lia. cbn [bind]. rewrite IH by lia. cbn [bind].
  rewrite <- (firstn_skipn m (firstn (Datatypes.S m) cs)), firstn_firstn, Nat.min_l by lia.
  replace (skipn m (firstn (Datatypes.S m) cs)) with [y]; [rewrite rev_app_distr; reflexivity|].
  rewrite skipn_firstn_comm. replace (Datatypes.S m - m)%nat with 1%nat by lia. rewrite (skipn_cons_nth cs m y Y). reflexivity.
Qed.
(** The value cannot be read where a temporary is referred to. *)
Lemma dead_deref i : (i < n)%nat -> op_deref (reversed true ops) (pos (Datatypes.S i)) = UB OobRead.
Proof.
  intros Hi. cbn [op_deref reversed]. rewrite (wk_dec _ _ _ W) by lia. cbn [bind]. destruct (nth_lt_some cs i ltac:(lia)) as [y Y].
  rewrite (wk_deref _ _ _ W i y) by (try rewrite nth_error_app1; assumption || lia). reflexivity.
Qed.
Lemma dead_loops fuel : (0 < fuel)%nat -> iterate_codepoints fuel (reversed true ops) (pos n) (pos 0%nat) = (if (n =? 0)%nat then Ok [] else UB OobRead) /\
  iterate_codepoints_for fuel (reversed true ops) (pos n) (pos 0%nat) = (if (n =? 0)%nat then Ok [] else UB OobRead).
Proof.
  intros Hf. destruct fuel as [|fuel]; [lia|]. cbn [iterate_codepoints iterate_codepoints_for]. unfold op_neq; cbn [op_eq reversed].
  rewrite (wk_eq _ _ _ W) by lia. destruct (Nat.eqb_spec n 0) as [E|E]; cbn [bind negb]; [split; reflexivity|].
  assert (E' : n = Datatypes.S (n - 1)) by lia. pose proof (dead_deref (n - 1) ltac:(lia)) as D. rewrite <- E' in D. rewrite D. cbn [bind].
  split; [|reflexivity]. cbn [op_postinc reversed]. rewrite E'. rewrite (wk_dec _ _ _ W) by lia. cbn [bind]. rewrite <- E', D. reflexivity.
Qed.
(** Steps and comparisons read nothing through the reference. *)
Lemma reversed_steps t m : forall i fuel k, (i + m <= n)%nat -> (m < fuel)%nat -> is_int k -> k + Z.of_nat m <= int_max ->
  distance_loop fuel (reversed t ops) (pos (i + m)) (pos i) k = Ok (k + Z.of_nat m).
Proof.
  induction m as [|m IH]; intros i fuel k Hi Hf K B; (destruct fuel as [|fuel]; [lia|]); cbn [distance_loop]; unfold op_neq at 1; cbn [op_eq reversed];
    rewrite (wk_eq _ _ _ W) by lia; cbn [bind].
  - rewrite Nat.add_0_r, Nat.eqb_refl. cbn [negb]. f_equal. lia.
  - destruct (Nat.eqb_spec (i + Datatypes.S m) i); [lia|]. cbn [negb op_inc reversed]. replace (i + Datatypes.S m)%nat with (Datatypes.S (i + m)) by lia.
    rewrite (wk_dec _ _ _ W) by lia. cbn [bind]. unfold is_int, int_min, int_max in *. unfold int_add.
    destruct ((int_min <=? k + 1) && (k + 1 <=? int_max)) eqn:E; unfold int_min, int_max in *; [|lia]. cbn [bind].
    rewrite IH by (unfold is_int, int_min, int_max; lia). f_equal. lia.
Qed.
End Reverse.
