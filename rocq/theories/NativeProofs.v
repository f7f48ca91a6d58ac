(** * std::string's comparison and search on lists of octets *)
From Verif Require Import Prelude Utf8Model TextModel Utf8Spec AlgoSpec NativeModel.
Require Import ZifyBool ZifyNat.

Fixpoint lexz (a b : list Z) : Z :=
  match a, b with
  | x :: a', y :: b' => if x <? y then -1 else if y <? x then 1 else lexz a' b'
  | _, _ => 0
  end.
Lemma rd_nth m p x t : 0 <= p -> skipn (Z.to_nat p) m = x :: t -> rd m p = Ok x /\ skipn (Z.to_nat (p + 1)) m = t.
Proof.
  intros P E.
  assert (N : nth_error m (Z.to_nat p) = Some x /\ skipn (S (Z.to_nat p)) m = t).
  { remember (Z.to_nat p) as n. clear - E. revert m E. induction n as [|n IH]; intros m E; destruct m as [|y m]; try discriminate E.
    - cbn in *. injection E as -> ->. split; reflexivity.
    - cbn [skipn] in E. cbn [nth_error]. apply IH in E. exact E. }
  destruct N as (N & K). split.
  - unfold rd. destruct (Z.ltb_spec p 0); [lia|]. rewrite N. reflexivity.
  - replace (Z.to_nat (p + 1)) with (S (Z.to_nat p)) by lia. exact K.
Qed.
Lemma memcmp_eq n : forall a p b q x y u v, 0 <= p -> 0 <= q -> length x = n -> length y = n ->
  skipn (Z.to_nat p) a = x ++ u -> skipn (Z.to_nat q) b = y ++ v -> memcmp n a p b q = Ok (lexz x y).
Proof.
  induction n as [|n IH]; intros a p b q x y u v P Q X Y A B; destruct x as [|c x], y as [|d y]; try discriminate; [reflexivity|].
  cbn [memcmp lexz]. destruct (rd_nth a p c (x ++ u) P A) as (-> & A'). destruct (rd_nth b q d (y ++ v) Q B) as (-> & B'). cbn [bind].
  destruct (c <? d); [reflexivity|]. destruct (d <? c); [reflexivity|]. injection X as X. injection Y as Y. apply (IH _ _ _ _ x y u v); (lia || assumption).
Qed.
Lemma compare_eq a p b q n x y u v : 0 <= p -> 0 <= q -> zlen x = n -> zlen y = n ->
  skipn (Z.to_nat p) a = x ++ u -> skipn (Z.to_nat q) b = y ++ v -> traits_compare a p b q n = Ok (lexz x y).
Proof.
  intros P Q X Y A B. unfold traits_compare. unfold zlen in *. destruct (Z.eqb_spec n 0) as [->|N].
  - destruct x; [reflexivity|cbn in X; lia].
  - apply (f_equal (@length Z)) in A as LA. apply (f_equal (@length Z)) in B as LB. rewrite skipn_length, app_length in LA, LB.
    replace (_ && _) with true by lia. apply (memcmp_eq _ a p b q x y u v); (lia || assumption).
Qed.
Lemma lexz_same x : forall y, length x = length y -> (lexz x y = 0 <-> x = y).
Proof.
  induction x as [|c x IH]; intros [|d y] L; try discriminate; [tauto|]. cbn [lexz]. injection L as L. specialize (IH y L).
  destruct (Z.ltb_spec c d); [split; [lia|intros E; injection E; lia]|]. destruct (Z.ltb_spec d c); [split; [lia|intros E; injection E; lia]|].
  rewrite IH. replace d with c by lia. split; [intros ->; reflexivity|]. intros E. injection E as ->. reflexivity.
Qed.
Lemma min_split (s t : list Z) : let n := Nat.min (length s) (length t) in
  lex_less s t <-> lexz (firstn n s) (firstn n t) < 0 \/ (lexz (firstn n s) (firstn n t) = 0 /\ (length s < length t)%nat).
Proof.
  cbv zeta. revert t. induction s as [|c s IH]; intros [|d t]; cbn [lex_less length Nat.min firstn lexz]; [lia..|]. rewrite IH.
  destruct (Z.ltb_spec c d); [lia|]. destruct (Z.ltb_spec d c); lia.
Qed.
Lemma min_equal (s t : list Z) : let n := Nat.min (length s) (length t) in
  s = t <-> lexz (firstn n s) (firstn n t) = 0 /\ length s = length t.
Proof.
  cbv zeta. split.
  - intros ->. split; [|reflexivity]. apply lexz_same; reflexivity.
  - intros (E & L). rewrite L, Nat.min_id in E. rewrite <- L in E at 1. rewrite !firstn_all in E. apply lexz_same; assumption.
Qed.
Lemma string_compare_ok s t : exists r, string_compare s t = Ok r /\ (r < 0 <-> lex_less s t) /\ (r = 0 <-> s = t).
Proof.
  unfold string_compare. set (n := Nat.min (length s) (length t)).
  rewrite (compare_eq _ 0 _ 0 _ (firstn n s) (firstn n t) (skipn n s ++ [0]) (skipn n t ++ [0])); try lia.
  - cbn [bind]. eexists. split; [reflexivity|]. pose proof (min_split s t) as A. pose proof (min_equal s t) as B. cbv zeta in A, B. fold n in A, B. rewrite A, B.
    unfold zlen. destruct (Z.eqb_spec (lexz (firstn n s) (firstn n t)) 0) as [E|E]; [|lia]. rewrite E. unfold s_compare, int_max, int_min.
    destruct (Z.ltb_spec 2147483647 (Z.of_nat (length s) - Z.of_nat (length t))); [lia|].
    destruct (Z.ltb_spec (Z.of_nat (length s) - Z.of_nat (length t)) (-2147483648)); lia.
  - unfold zlen. rewrite firstn_length. lia.
  - unfold zlen. rewrite firstn_length. lia.
  - cbn [Z.to_nat skipn]. unfold string_buffer. rewrite app_assoc, firstn_skipn. reflexivity.
  - cbn [Z.to_nat skipn]. unfold string_buffer. rewrite app_assoc, firstn_skipn. reflexivity.
Qed.
Lemma string_equal_ok s t : exists r, string_equal s t = Ok r /\ (r = true <-> s = t).
Proof.
  unfold string_equal. destruct (Z.eqb_spec (zlen s) (zlen t)) as [E|E].
  - rewrite (compare_eq _ 0 _ 0 _ s t [0] [0]); try reflexivity; try lia. cbn [bind]. eexists. split; [reflexivity|].
    unfold zlen in E. rewrite <- (lexz_same s t) by lia. lia.
  - eexists. split; [reflexivity|]. split; [discriminate|]. intros ->. contradiction.
Qed.

(** ** Searching *)
Lemma occurs_skipn s t k : occurs_at s t k <-> (k <= length s)%nat /\ exists r, skipn k s = t ++ r.
Proof.
  split.
  - intros (x & y & -> & <-). split; [rewrite app_length; lia|]. exists y. rewrite skipn_app, skipn_all, Nat.sub_diag. reflexivity.
  - intros (L & r & E). exists (firstn k s), r. split; [rewrite <- E; symmetry; apply firstn_skipn|rewrite firstn_length; lia].
Qed.
Lemma skipn_buffer s k : (k <= length s)%nat -> skipn k (string_buffer s) = skipn k s ++ [0].
Proof. intros L. unfold string_buffer. rewrite skipn_app. replace (k - length s)%nat with O by lia. reflexivity. Qed.
Lemma compare_at s t k : (k + length t <= length s)%nat ->
  exists r, traits_compare (string_buffer s) (Z.of_nat k) (string_buffer t) 0 (zlen t) = Ok r /\ (r = 0 <-> occurs_at s t k).
Proof.
  intros L. set (x := firstn (length t) (skipn k s)). assert (Lx : length x = length t) by (unfold x; rewrite firstn_length, skipn_length; lia).
  rewrite (compare_eq _ _ _ _ _ x t (skipn (length t) (skipn k s) ++ [0]) [0]); try lia.
  - eexists. split; [reflexivity|]. rewrite (lexz_same x t Lx), occurs_skipn. split.
    + intros E. split; [lia|]. exists (skipn (length t) (skipn k s)). rewrite <- E at 1. symmetry. apply firstn_skipn.
    + intros (_ & r & E). unfold x. rewrite E, firstn_app, Nat.sub_diag, firstn_all. apply app_nil_r.
  - unfold zlen. lia.
  - rewrite Nat2Z.id, skipn_buffer by lia. rewrite app_assoc. unfold x. rewrite firstn_skipn. reflexivity.
  - reflexivity.
Qed.
Lemma occurs_room s t k : occurs_at s t k -> (k + length t <= length s)%nat.
Proof. intros (x & y & -> & <-). rewrite !app_length. lia. Qed.
Lemma occurs_head s v t k : occurs_at s (v :: t) k -> rd (string_buffer s) (Z.of_nat k) = Ok v.
Proof.
  intros O. apply occurs_skipn in O. destruct O as (L & r & E). apply (rd_nth _ (Z.of_nat k) v (t ++ r ++ [0]) ltac:(lia)).
  rewrite Nat2Z.id, skipn_buffer, E by exact L. cbn [app]. rewrite <- app_assoc. reflexivity.
Qed.
Lemma rd_in s k : (k < length s)%nat -> exists x, rd (string_buffer s) (Z.of_nat k) = Ok x.
Proof.
  intros L. destruct (skipn k s) as [|x r] eqn:E; [apply (f_equal (@length Z)) in E; rewrite skipn_length in E; cbn in E; lia|].
  exists x. apply (rd_nth _ (Z.of_nat k) x (r ++ [0]) ltac:(lia)). rewrite Nat2Z.id, skipn_buffer, E by lia. reflexivity.
Qed.
(** What memchr over [n] octets from [k] finds. *)
Lemma memchr_ok s v n : forall k, (k + n <= length s)%nat ->
  (memchr n (string_buffer s) (Z.of_nat k) v = Ok None /\ forall i, (k <= i < k + n)%nat -> rd (string_buffer s) (Z.of_nat i) <> Ok v) \/
  (exists j, memchr n (string_buffer s) (Z.of_nat k) v = Ok (Some (Z.of_nat j)) /\ (k <= j < k + n)%nat /\
     forall i, (k <= i < j)%nat -> rd (string_buffer s) (Z.of_nat i) <> Ok v).
Proof.
  induction n as [|n IH]; intros k L; cbn [memchr]; [left; split; [reflexivity|lia]|].
  destruct (rd_in s k ltac:(lia)) as (x & R). rewrite R. cbn [bind]. destruct (Z.eqb_spec x v) as [->|N].
  - right. exists k. split; [reflexivity|]. split; lia.
  - replace (Z.of_nat k + 1) with (Z.of_nat (S k)) by lia. destruct (IH (S k) ltac:(lia)) as [(E & H)|(j & E & J & H)]; rewrite E.
    + left. split; [reflexivity|]. intros i I. destruct (Nat.eq_dec i k) as [->|]; [congruence|]. apply H. lia.
    + right. exists j. split; [reflexivity|]. split; [lia|]. intros i I. destruct (Nat.eq_dec i k) as [->|]; [congruence|]. apply H. lia.
Qed.
(** The first occurrence from [from] on. *)
Definition found_from (s t : list Z) (from : nat) (r : option Z) : Prop :=
  match r with
  | Some p => exists k, p = Z.of_nat k /\ (from <= k)%nat /\ occurs_at s t k /\ forall i, (from <= i < k)%nat -> ~ occurs_at s t i
  | None => forall i, (from <= i)%nat -> ~ occurs_at s t i
  end.
Lemma find_loop_ok s v t fuel : forall k, (k <= S (length s))%nat -> (S (length s) < k + fuel)%nat ->
  exists r, string_find_loop fuel (string_buffer s) (Z.of_nat k) (zlen s) (string_buffer (v :: t)) (zlen (v :: t)) v = Ok r /\ found_from s (v :: t) k r.
Proof.
  induction fuel as [|fuel IH]; intros k L F; [lia|]. cbn [string_find_loop].
  destruct (Z.leb_spec (zlen (v :: t)) (zlen s - Z.of_nat k)) as [R|R].
  2: { exists None. split; [reflexivity|]. intros i I O. apply occurs_room in O. unfold zlen in R. lia. }
  unfold zlen in R. cbn [length] in R. unfold traits_find.
  replace (zlen s - Z.of_nat k - zlen (v :: t) + 1) with (Z.of_nat (length s - k - length t)) by (unfold zlen; cbn [length]; lia).
  destruct (Z.eqb_spec (Z.of_nat (length s - k - length t)) 0); [lia|]. rewrite Nat2Z.id.
  destruct (memchr_ok s v (length s - k - length t) k ltac:(lia)) as [(E & H)|(j & E & J & H)]; rewrite E; cbn [bind].
  - exists None. split; [reflexivity|]. intros i I O. apply (H i); [apply occurs_room in O; cbn [length] in O; lia|]. exact (occurs_head s v t i O).
  - destruct (compare_at s (v :: t) j ltac:(cbn [length]; lia)) as (r & C & Q). rewrite C. cbn [bind]. destruct (Z.eqb_spec r 0) as [->|N].
    + eexists. split; [reflexivity|]. exists j. split; [reflexivity|]. split; [lia|]. split; [apply Q; reflexivity|].
      intros i I O. apply (H i I). exact (occurs_head s v t i O).
    + replace (Z.of_nat j + 1) with (Z.of_nat (S j)) by lia. destruct (IH (S j) ltac:(lia) ltac:(lia)) as (r' & E' & P). rewrite E'. exists r'. split; [reflexivity|].
      assert (B : forall i, (k <= i <= j)%nat -> ~ occurs_at s (v :: t) i).
      { intros i I O. destruct (Nat.eq_dec i j) as [->|]; [tauto|]. apply (H i ltac:(lia)). exact (occurs_head s v t i O). }
      destruct r' as [p|]; cbn [found_from] in *.
      * destruct P as (m & -> & M & O & P). exists m. split; [reflexivity|]. split; [lia|]. split; [exact O|]. intros i I.
        destruct (Nat.le_gt_cases i j); [apply B; lia|apply P; lia].
      * intros i I. destruct (Nat.le_gt_cases i j); [apply B; lia|apply P; lia].
Qed.
Lemma string_find_ok s t from fuel : (S (length s) < fuel)%nat ->
  exists r, string_find fuel s t (Z.of_nat from) = Ok r /\ found_from s t from r.
Proof.
  intros F. unfold string_find. destruct t as [|v t].
  - change (zlen [] =? 0) with true. eexists. split; [reflexivity|]. unfold zlen. destruct (Z.leb_spec (Z.of_nat from) (Z.of_nat (length s))).
    + exists from. split; [reflexivity|]. split; [lia|]. split; [|lia]. apply occurs_skipn. split; [lia|]. eexists. reflexivity.
    + intros i I O. apply occurs_room in O. cbn in O. lia.
  - destruct (Z.eqb_spec (zlen (v :: t)) 0) as [E|_]; [unfold zlen in E; cbn [length] in E; lia|]. destruct (Z.leb_spec (zlen s) (Z.of_nat from)) as [L|L]; unfold zlen in L.
    + exists None. split; [reflexivity|]. intros i I O. apply occurs_room in O. cbn [length] in O. lia.
    + change (rd (string_buffer (v :: t)) 0) with (Ok v). cbn [bind]. apply find_loop_ok; lia.
Qed.
(** The last occurrence up to [upto]. *)
Definition found_upto (s t : list Z) (upto : nat) (r : option Z) : Prop :=
  match r with
  | Some p => exists k, p = Z.of_nat k /\ (k <= upto)%nat /\ occurs_at s t k /\ forall i, (k < i <= upto)%nat -> ~ occurs_at s t i
  | None => forall i, (i <= upto)%nat -> ~ occurs_at s t i
  end.
Lemma rfind_loop_ok s t fuel : forall k, (k + length t <= length s)%nat -> (k < fuel)%nat ->
  exists r, string_rfind_loop fuel (string_buffer s) (Z.of_nat k) (string_buffer t) (zlen t) = Ok r /\ found_upto s t k r.
Proof.
  induction fuel as [|fuel IH]; intros k L F; [lia|]. cbn [string_rfind_loop]. destruct (compare_at s t k L) as (r & C & Q). rewrite C. cbn [bind].
  destruct (Z.eqb_spec r 0) as [->|N].
  - eexists. split; [reflexivity|]. exists k. split; [reflexivity|]. split; [lia|]. split; [apply Q; reflexivity|lia].
  - assert (O : ~ occurs_at s t k) by tauto. destruct (Z.ltb_spec 0 (Z.of_nat k)) as [K|K].
    + replace (Z.of_nat k - 1) with (Z.of_nat (k - 1)) by lia. destruct (IH (k - 1)%nat ltac:(lia) ltac:(lia)) as (r' & E & P). rewrite E. exists r'. split; [reflexivity|].
      destruct r' as [p|]; cbn [found_upto] in *.
      * destruct P as (m & -> & M & O' & P). exists m. split; [reflexivity|]. split; [lia|]. split; [exact O'|]. intros i I.
        destruct (Nat.eq_dec i k) as [->|]; [exact O|apply P; lia].
      * intros i I. destruct (Nat.eq_dec i k) as [->|]; [exact O|apply P; lia].
    + exists None. split; [reflexivity|]. intros i I. replace i with k by lia. exact O.
Qed.
Lemma string_rfind_ok s t upto fuel : (length s < fuel)%nat ->
  exists r, string_rfind fuel s t (Z.of_nat upto) = Ok r /\ found_upto s t upto r.
Proof.
  intros F. unfold string_rfind. destruct (Z.leb_spec (zlen t) (zlen s)) as [L|L]; unfold zlen in L.
  - replace (Z.min (zlen s - zlen t) (Z.of_nat upto)) with (Z.of_nat (Nat.min (length s - length t) upto)) by (unfold zlen; lia).
    destruct (rfind_loop_ok s t fuel (Nat.min (length s - length t) upto) ltac:(lia) ltac:(lia)) as (r & E & P). exists r. split; [exact E|].
    assert (B : forall i, (Nat.min (length s - length t) upto < i <= upto)%nat -> ~ occurs_at s t i) by (intros i I O; apply occurs_room in O; lia).
    destruct r as [p|]; cbn [found_upto] in *.
    + destruct P as (m & -> & M & O' & P). exists m. split; [reflexivity|]. split; [lia|]. split; [exact O'|]. intros i I.
      destruct (Nat.le_gt_cases i (Nat.min (length s - length t) upto)); [apply P; lia|apply B; lia].
    + intros i I. destruct (Nat.le_gt_cases i (Nat.min (length s - length t) upto)); [apply P; lia|apply B; lia].
  - exists None. split; [reflexivity|]. intros i I O. apply occurs_room in O. lia.
Qed.
