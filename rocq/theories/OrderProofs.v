(** * Proofs: sorting by combining class and the Canonical Ordering Algorithm *)
From Coq Require Import Permutation Sorted Relations.
From Verif Require Import Prelude DataTables PropsModel Utf8Model TextModel UcdTables UnicodeSpec PropsProofs NormSpec.
Require Import ZifyBool ZifyNat.

Lemma has_ccc_eq c k : has_ccc c k <-> ccc c = k.
Proof. symmetry. apply ccc_spec. Qed.
Lemma ccc_le_iff a b : ccc_le a b <-> ccc a <= ccc b.
Proof.
  unfold ccc_le. split.
  - intros H. apply H; apply has_ccc_total.
  - intros H i j Hi Hj. apply has_ccc_eq in Hi, Hj. lia.
Qed.
Lemma ccc_nonneg c : 0 <= ccc c.
Proof.
  assert (H : forallb (fun r => 0 <=? snd r) ucd_ccc = true) by (vm_cast_no_check (eq_refl true)).
  destruct (has_ccc_total c) as [I|[_ E]]; [|lia]. rewrite forallb_forall in H. specialize (H _ I). cbn [snd] in H. lia.
Qed.
Definition of_class (k : Z) (l : list Z) : list Z := List.filter (fun c => ccc c =? k) l.
Lemma with_class_eq k l s : with_class k l s <-> s = of_class k l.
Proof.
  unfold of_class. revert s. induction l as [|c l IH]; intros s; cbn [List.filter].
  - split; [intros H; inversion H; reflexivity|intros ->; constructor].
  - destruct (Z.eqb_spec (ccc c) k) as [E|E]; split; intros H.
    + inversion H as [|? ? s' Hc W|? ? ? N W]; subst; [f_equal; apply IH; assumption|]. exfalso. apply N, has_ccc_eq. reflexivity.
    + subst s. constructor; [apply has_ccc_eq; assumption|]. apply IH. reflexivity.
    + inversion H as [|? ? s' Hc W|? ? ? N W]; subst; [exfalso; apply E, has_ccc_eq; assumption|]. apply IH. assumption.
    + subst s. constructor; [intros Q; apply E, has_ccc_eq, Q|]. apply IH. reflexivity.
Qed.
Lemma order_kept_eq l l' : order_kept l l' <-> forall k, of_class k l' = of_class k l.
Proof.
  unfold order_kept. split.
  - intros H k. symmetry. apply with_class_eq, H, with_class_eq. reflexivity.
  - intros H k s W. apply with_class_eq in W. apply with_class_eq. congruence.
Qed.

(** ** Stable insertion sort *)
Fixpoint insert (x : Z) (l : list Z) : list Z :=
  match l with [] => [x] | y :: t => if ccc x <=? ccc y then x :: l else y :: insert x t end.
Definition isort (l : list Z) : list Z := fold_right insert [] l.
Lemma insert_perm x l : Permutation (x :: l) (insert x l).
Proof.
  induction l as [|y l IH]; cbn [insert]; [constructor; constructor|].
  destruct (ccc x <=? ccc y); [apply Permutation_refl|].
  eapply perm_trans; [apply perm_swap|]. constructor. assumption.
Qed.
Lemma isort_perm l : Permutation l (isort l).
Proof.
  induction l as [|x l IH]; cbn [isort fold_right]; [constructor|].
  eapply perm_trans; [constructor; exact IH|]. apply insert_perm.
Qed.
Lemma insert_sorted x l : StronglySorted ccc_le l -> StronglySorted ccc_le (insert x l).
Proof.
  induction 1 as [|y l S IH F]; cbn [insert]; [repeat constructor|].
  destruct (Z.leb_spec (ccc x) (ccc y)) as [H|H].
  - constructor; [constructor; assumption|]. constructor; [apply ccc_le_iff; assumption|].
    rewrite Forall_forall in *. intros z Hz. specialize (F z Hz). apply ccc_le_iff in F. apply ccc_le_iff. lia.
  - constructor; [assumption|]. rewrite Forall_forall in *. intros z Hz.
    apply (Permutation_in _ (Permutation_sym (insert_perm x l))) in Hz. destruct Hz as [<-|Hz]; [apply ccc_le_iff; lia|auto].
Qed.
Lemma isort_sorted l : StronglySorted ccc_le (isort l).
Proof. induction l; cbn; [constructor|apply insert_sorted; assumption]. Qed.
Lemma insert_class k x l : StronglySorted ccc_le l -> of_class k (insert x l) = of_class k (x :: l).
Proof.
  induction 1 as [|y l S IH F]; cbn [insert]; [reflexivity|].
  destruct (Z.leb_spec (ccc x) (ccc y)) as [H|H]; [reflexivity|].
  unfold of_class in *. cbn [List.filter] in *. rewrite IH.
  destruct (Z.eqb_spec (ccc x) k), (Z.eqb_spec (ccc y) k); try reflexivity. lia.
Qed.
Lemma isort_class k l : of_class k (isort l) = of_class k l.
Proof.
  induction l as [|x l IH]; [reflexivity|]. cbn [isort fold_right]. fold (isort l). rewrite insert_class by apply isort_sorted.
  unfold of_class in *. cbn [List.filter]. rewrite IH. reflexivity.
Qed.
Lemma order_is_ccc a b : canonical_combining_order a b = Ok (ccc a <? ccc b).
Proof. unfold canonical_combining_order. rewrite !ccc_resolve. reflexivity. Qed.
Lemma comp_sorted l : StronglySorted (fun a b => canonical_combining_order b a = Ok false) l <-> StronglySorted ccc_le l.
Proof.
  induction l as [|x l IH]; [split; constructor|]. split; intros S; inversion S as [|? ? S' F]; subst; (constructor; [apply IH; assumption|]);
    rewrite Forall_forall in *; intros y Y; specialize (F y Y).
  - rewrite order_is_ccc in F. injection F as F. apply ccc_le_iff. lia.
  - apply ccc_le_iff in F. rewrite order_is_ccc. f_equal. lia.
Qed.
Lemma std_sort_classes sort : std_sort_ok sort <-> forall l, Permutation l (sort l) /\ StronglySorted ccc_le (sort l).
Proof. split; intros H l; destruct (H l) as [P S]; (split; [assumption|apply comp_sorted; assumption]). Qed.
Lemma isort_std : std_sort_ok isort.
Proof. apply std_sort_classes. intros l. split; [apply isort_perm|apply isort_sorted]. Qed.
Lemma isort_stable : stable isort.
Proof. intros l. apply order_kept_eq. intros k. apply isort_class. Qed.

(** Sorted lists with the same classes are equal. *)
Lemma sorted_class_unique l : forall l', StronglySorted ccc_le l -> StronglySorted ccc_le l' ->
  (forall k, of_class k l = of_class k l') -> l = l'.
Proof.
  assert (HD : forall x l k, StronglySorted ccc_le (x :: l) -> of_class k (x :: l) <> [] -> ccc x <= k).
  { intros x l0 k S NE. inversion S as [|? ? _ F]; subst. rewrite Forall_forall in F.
    destruct (of_class k (x :: l0)) as [|z r] eqn:E; [contradiction|].
    assert (I : In z (of_class k (x :: l0))) by (rewrite E; left; reflexivity).
    apply filter_In in I. destruct I as [[<-|I] K]; [lia|]. specialize (F z I). apply ccc_le_iff in F. lia. }
  induction l as [|x l IH]; intros [|y l'] S S' H; [reflexivity| | |].
  - specialize (H (ccc y)). unfold of_class in H. cbn [List.filter] in H. rewrite Z.eqb_refl in H. discriminate.
  - specialize (H (ccc x)). unfold of_class in H. cbn [List.filter] in H. rewrite Z.eqb_refl in H. discriminate.
  - assert (NX : of_class (ccc x) (x :: l) <> []) by (unfold of_class; cbn [List.filter]; rewrite Z.eqb_refl; discriminate).
    assert (NY : of_class (ccc y) (y :: l') <> []) by (unfold of_class; cbn [List.filter]; rewrite Z.eqb_refl; discriminate).
    assert (L1 := HD y l' (ccc x) S'). rewrite <- H in L1. specialize (L1 NX).
    assert (L2 := HD x l (ccc y) S). rewrite H in L2. specialize (L2 NY).
    assert (E : ccc x = ccc y) by lia.
    assert (HX := H (ccc x)). unfold of_class in HX. cbn [List.filter] in HX. rewrite E, !Z.eqb_refl in HX. injection HX as -> _.
    f_equal. apply IH; [inversion S; assumption|inversion S'; assumption|]. intros k. specialize (H k). unfold of_class in *.
    cbn [List.filter] in H. destruct (ccc y =? k); [injection H; auto|assumption].
Qed.
Lemma stable_sort_eq sort : std_sort_ok sort -> stable sort -> forall l, sort l = isort l.
Proof.
  intros S T l. apply sorted_class_unique; [apply (std_sort_classes sort); assumption|apply isort_sorted|]. intros k.
  rewrite isort_class. apply order_kept_eq, T.
Qed.
(** Any sort is forced when no class occurs twice. *)
Lemma perm_class l l' : Permutation l l' -> forall k, Permutation (of_class k l) (of_class k l').
Proof.
  intros P k. unfold of_class. induction P as [|x l l' P IH|x y l|l l' l'' P1 IH1 P2 IH2]; cbn [List.filter].
  - constructor.
  - destruct (ccc x =? k); [constructor|]; assumption.
  - destruct (ccc x =? k), (ccc y =? k); try apply Permutation_refl. apply perm_swap.
  - eapply perm_trans; eassumption.
Qed.
Definition distinct_classes (l : list Z) : Prop := NoDup (map ccc l).
Lemma distinct_sort_eq sort l : std_sort_ok sort -> distinct_classes l -> sort l = isort l.
Proof.
  intros S D. destruct (proj1 (std_sort_classes sort) S l) as [P O]. apply sorted_class_unique; [assumption|apply isort_sorted|]. intros k. rewrite isort_class.
  pose proof (perm_class _ _ P k) as Q.
  assert (LE : (length (of_class k l) <= 1)%nat).
  { clear -D. unfold distinct_classes, of_class in *. induction l as [|x l IH]; cbn [List.filter]; [cbn; lia|].
    cbn [map] in D. inversion D as [|? ? N D']; subst. destruct (Z.eqb_spec (ccc x) k) as [E|E]; [|auto].
    assert (N2 : List.filter (fun c => ccc c =? k) l = []).
    { destruct (List.filter (fun c => ccc c =? k) l) as [|z r] eqn:F; [reflexivity|]. exfalso. apply N.
      assert (I : In z (List.filter (fun c => ccc c =? k) l)) by (rewrite F; left; reflexivity).
      apply filter_In in I. destruct I as [I K]. rewrite E. replace k with (ccc z) by lia. apply in_map. assumption. }
    rewrite N2. cbn. lia. }
  destruct (of_class k l) as [|x [|]] eqn:E; [|..|cbn in LE; lia].
  - apply Permutation_nil in Q. assumption.
  - apply Permutation_length_1_inv in Q. assumption.
Qed.

(** ** The Canonical Ordering Algorithm as a function *)
Fixpoint cinsert (x : Z) (l : list Z) : list Z :=
  match l with [] => [x] | y :: t => if (ccc y =? 0) || (ccc x <=? ccc y) then x :: l else y :: cinsert x t end.
Definition corder (l : list Z) : list Z := fold_right cinsert [] l.
Lemma exchange_cons x l l' : exchange l l' -> exchange (x :: l) (x :: l').
Proof. intros [p a b y i j A B H]. exact (exch (x :: p) a b y i j A B H). Qed.
Lemma steps_cons x l l' : clos_refl_trans _ exchange l l' -> clos_refl_trans _ exchange (x :: l) (x :: l').
Proof.
  induction 1; [apply rt_step, exchange_cons; assumption|apply rt_refl|eapply rt_trans; eassumption].
Qed.
Lemma cinsert_steps x l : clos_refl_trans _ exchange (x :: l) (cinsert x l).
Proof.
  revert x. induction l as [|y l IH]; intros x; cbn [cinsert]; [apply rt_refl|].
  destruct ((ccc y =? 0) || (ccc x <=? ccc y)) eqn:E; [apply rt_refl|].
  eapply rt_trans; [|apply steps_cons, IH].
  apply rt_step. apply (exch [] x y l (ccc x) (ccc y)); [apply has_ccc_total|apply has_ccc_total|].
  pose proof (ccc_nonneg y). lia.
Qed.
Lemma corder_steps l : clos_refl_trans _ exchange l (corder l).
Proof.
  induction l as [|x l IH]; cbn [corder fold_right]; [apply rt_refl|].
  eapply rt_trans; [apply steps_cons, IH|apply cinsert_steps].
Qed.
(** Ordered lists *)
Definition okpair (a b : Z) : bool := (ccc b =? 0) || (ccc a <=? ccc b).
Fixpoint orderedb (l : list Z) : bool :=
  match l with a :: (b :: _) as t => okpair a b && orderedb t | _ => true end.
Lemma orderedb_spec l : orderedb l = true <-> canonically_ordered l.
Proof.
  unfold canonically_ordered. split.
  - intros O l' X. revert O. destruct X as [p a b y i j A B H]. intros O. apply has_ccc_eq in A, B. induction p as [|z p IH].
    + cbn [app orderedb] in O. apply andb_prop in O. destruct O as [O _]. unfold okpair in O. lia.
    + apply IH. cbn [app] in O. destruct p; cbn [app orderedb] in O; apply andb_prop in O; destruct O as [_ O]; exact O.
  - induction l as [|a [|b t] IH]; intros N; [reflexivity|reflexivity|]. cbn [orderedb]. apply andb_true_intro. split.
    + destruct (okpair a b) eqn:E; [reflexivity|]. exfalso. unfold okpair in E.
      apply (N (b :: a :: t)). apply (exch [] a b t (ccc a) (ccc b)); [apply has_ccc_total|apply has_ccc_total|].
      pose proof (ccc_nonneg b). lia.
    + apply IH. intros l' X. apply (N (a :: l')). apply exchange_cons. assumption.
Qed.
Lemma cinsert_id x l : orderedb (x :: l) = true -> cinsert x l = x :: l.
Proof. destruct l as [|y l]; [reflexivity|]. cbn [orderedb cinsert]. unfold okpair. intros H. destruct (_ || _); [reflexivity|discriminate]. Qed.
Lemma corder_id l : orderedb l = true -> corder l = l.
Proof.
  induction l as [|x l IH]; intros H; [reflexivity|]. cbn [corder fold_right]. fold (corder l).
  rewrite IH by (destruct l; [reflexivity|cbn [orderedb] in H; apply andb_prop in H; tauto]). apply cinsert_id. assumption.
Qed.
Lemma cinsert_ordered x l : orderedb l = true -> orderedb (cinsert x l) = true.
Proof.
  intros O. induction l as [|y l IH]; [reflexivity|]. cbn [cinsert].
  destruct ((ccc y =? 0) || (ccc x <=? ccc y)) eqn:E.
  - cbn [orderedb]. unfold okpair. rewrite E. exact O.
  - assert (O' : orderedb l = true) by (destruct l; [reflexivity|cbn [orderedb] in O; apply andb_prop in O; tauto]).
    specialize (IH O'). destruct l as [|z l]; cbn [cinsert] in *.
    + cbn [orderedb]. unfold okpair. lia.
    + cbn [orderedb] in O. destruct ((ccc z =? 0) || (ccc x <=? ccc z)) eqn:E2; cbn [orderedb] in *; unfold okpair in *; lia.
Qed.
Lemma corder_ordered l : orderedb (corder l) = true.
Proof. induction l; [reflexivity|]. apply cinsert_ordered. assumption. Qed.
Lemma cinsert_comm a b l : 0 < ccc b < ccc a -> cinsert a (cinsert b l) = cinsert b (cinsert a l).
Proof.
  intros H. induction l as [|y l IH].
  - cbn [cinsert]. destruct ((ccc b =? 0) || (ccc a <=? ccc b)) eqn:E1; [lia|].
    destruct ((ccc a =? 0) || (ccc b <=? ccc a)) eqn:E2; [reflexivity|lia].
  - cbn [cinsert]. destruct ((ccc y =? 0) || (ccc b <=? ccc y)) eqn:Eb; destruct ((ccc y =? 0) || (ccc a <=? ccc y)) eqn:Ea;
      cbn [cinsert]; rewrite ?Ea, ?Eb;
      try (destruct ((ccc b =? 0) || (ccc a <=? ccc b)) eqn:E1; [lia|]);
      try (destruct ((ccc a =? 0) || (ccc b <=? ccc a)) eqn:E2; [|lia]); cbn [cinsert]; rewrite ?Ea, ?Eb; try reflexivity; try lia.
    rewrite IH. reflexivity.
Qed.
Lemma corder_app l r : corder (l ++ r) = fold_right cinsert (corder r) l.
Proof. unfold corder. rewrite fold_right_app. reflexivity. Qed.
Lemma exchange_corder l l' : exchange l l' -> corder l = corder l'.
Proof.
  intros [p a b y i j A B H]. apply has_ccc_eq in A, B. rewrite !corder_app. f_equal.
  cbn [corder fold_right]. apply cinsert_comm. lia.
Qed.
Lemma steps_corder l l' : clos_refl_trans _ exchange l l' -> corder l = corder l'.
Proof. induction 1; [apply exchange_corder; assumption|reflexivity|congruence]. Qed.
Lemma canonical_order_eq l l' : canonical_order l l' <-> l' = corder l.
Proof.
  unfold canonical_order. rewrite <- orderedb_spec. split.
  - intros [S O]. rewrite (steps_corder _ _ S). symmetry. apply corder_id. assumption.
  - intros ->. split; [apply corder_steps|apply corder_ordered].
Qed.

(** ** Stable sort against canonical ordering *)
Definition starters_first (l : list Z) : Prop :=
  forall x a y b z, l = x ++ a :: y ++ b :: z -> ccc a <> 0 -> ccc b <> 0.
Lemma insert_cinsert x l : Forall (fun c => ccc c <> 0) l -> cinsert x l = insert x l.
Proof.
  induction 1 as [|y l Hy _ IH]; [reflexivity|]. cbn [cinsert insert]. destruct (Z.eqb_spec (ccc y) 0); [contradiction|].
  cbn [orb]. rewrite IH. reflexivity.
Qed.
Lemma starters_first_cons x l : starters_first (x :: l) ->
  starters_first l /\ (ccc x <> 0 -> Forall (fun c => ccc c <> 0) l).
Proof.
  intros H. split.
  - intros p a y b z E. apply (H (x :: p) a y b z). rewrite E. reflexivity.
  - intros N. apply Forall_forall. intros c Hc. apply in_split in Hc. destruct Hc as (y & z & ->).
    apply (H [] x y c z); [reflexivity|assumption].
Qed.
Lemma corder_perm l : Permutation l (corder l).
Proof.
  induction l as [|x l IH]; [constructor|]. cbn [corder fold_right].
  eapply perm_trans; [constructor; exact IH|]. fold (corder l). clear. generalize (corder l) as m. induction m as [|y m IH]; cbn [cinsert].
  - constructor. constructor.
  - destruct (_ || _); [apply Permutation_refl|]. eapply perm_trans; [apply perm_swap|]. constructor. assumption.
Qed.
Lemma sort_is_order l : starters_first l -> isort l = corder l.
Proof.
  induction l as [|x l IH]; intros H; [reflexivity|]. apply starters_first_cons in H. destruct H as [H1 H2].
  cbn [isort corder fold_right]. fold (isort l) (corder l). rewrite (IH H1).
  destruct (Z.eq_dec (ccc x) 0) as [E|E].
  - assert (Q : forall m, insert x m = x :: m) by (intros [|y m]; cbn [insert]; [reflexivity|]; rewrite E; pose proof (ccc_nonneg y); destruct (Z.leb_spec 0 (ccc y)); [reflexivity|lia]).
    assert (Q' : forall m, cinsert x m = x :: m) by (intros [|y m]; cbn [cinsert]; [reflexivity|]; rewrite E; pose proof (ccc_nonneg y); destruct (Z.leb_spec 0 (ccc y)); [rewrite orb_true_r; reflexivity|lia]).
    rewrite Q, Q'. reflexivity.
  - symmetry. apply insert_cinsert. specialize (H2 E). rewrite Forall_forall in *. intros c Hc. apply H2.
    apply (Permutation_in _ (Permutation_sym (corder_perm l))). assumption.
Qed.
Lemma cinsert_mask x l : map (fun c => ccc c =? 0) (cinsert x l) = map (fun c => ccc c =? 0) (x :: l).
Proof.
  revert x. induction l as [|y l IH]; intros x; [reflexivity|]. cbn [cinsert].
  destruct ((ccc y =? 0) || (ccc x <=? ccc y)) eqn:E; [reflexivity|]. cbn [map]. rewrite IH. cbn [map]. pose proof (ccc_nonneg y).
  f_equal; [|f_equal]; lia.
Qed.
Lemma corder_mask l : map (fun c => ccc c =? 0) (corder l) = map (fun c => ccc c =? 0) l.
Proof. induction l as [|x l IH]; [reflexivity|]. cbn [corder fold_right]. fold (corder l). rewrite cinsert_mask. cbn [map]. rewrite IH. reflexivity. Qed.
Lemma sorted_starters_first l : StronglySorted ccc_le l -> starters_first l.
Proof.
  intros S x a y b z -> Na. induction x as [|w x IH].
  - cbn [app] in S. inversion S as [|? ? _ F]; subst. rewrite Forall_forall in F.
    specialize (F b ltac:(apply in_or_app; right; left; reflexivity)). apply ccc_le_iff in F. pose proof (ccc_nonneg a). lia.
  - apply IH. inversion S. assumption.
Qed.
Lemma mask_starters_first l : starters_first l <->
  forall i j, (i < j)%nat -> nth_error (map (fun c => ccc c =? 0) l) i = Some false ->
    nth_error (map (fun c => ccc c =? 0) l) j <> Some true.
Proof.
  split.
  - intros H i j Hij A B. rewrite nth_error_map in A, B.
    destruct (nth_error l i) as [a|] eqn:Ea; [|discriminate]. destruct (nth_error l j) as [b|] eqn:Eb; [|discriminate].
    cbn in A, B. injection A as A. injection B as B.
    apply nth_error_split in Ea. destruct Ea as (x & r & -> & Lx).
    rewrite nth_error_app2 in Eb by lia. destruct (j - length x)%nat as [|m] eqn:Em; [lia|]. cbn in Eb.
    apply nth_error_split in Eb. destruct Eb as (y & z & -> & _).
    apply (H x a y b z eq_refl); lia.
  - intros H x a y b z -> Na Nb. apply (H (length x) (length (x ++ a :: y))).
    + rewrite app_length. cbn. lia.
    + rewrite nth_error_map, nth_error_app2, Nat.sub_diag by lia. cbn. f_equal. lia.
    + rewrite nth_error_map. replace (x ++ a :: y ++ b :: z) with ((x ++ a :: y) ++ b :: z) by (rewrite <- app_assoc; reflexivity).
      rewrite nth_error_app2, Nat.sub_diag by lia. cbn. f_equal. lia.
Qed.
Lemma sort_is_order_iff l : isort l = corder l <-> starters_first l.
Proof.
  split; [|apply sort_is_order]. intros E. apply mask_starters_first. rewrite <- (corder_mask l), <- E.
  apply mask_starters_first. apply sorted_starters_first, isort_sorted.
Qed.

(** ** Ordering piece by piece *)
Lemma cinsert_before_starter x m s n : ccc s = 0 -> cinsert x (m ++ s :: n) = cinsert x m ++ s :: n.
Proof.
  intros H. induction m as [|y m IH]; cbn [app cinsert].
  - rewrite H. reflexivity.
  - destruct (_ || _); [reflexivity|]. rewrite IH. reflexivity.
Qed.
Lemma corder_starter l s r : ccc s = 0 -> corder (l ++ s :: r) = corder l ++ s :: corder r.
Proof.
  intros H. induction l as [|x l IH].
  - cbn [app corder fold_right]. fold (corder r). destruct (corder r) as [|y m]; [reflexivity|]. cbn [cinsert]. rewrite H.
    pose proof (ccc_nonneg y). destruct (Z.leb_spec 0 (ccc y)); [rewrite orb_true_r; reflexivity|lia].
  - cbn [app corder fold_right]. fold (corder (l ++ s :: r)) (corder l). rewrite IH. apply cinsert_before_starter. assumption.
Qed.
Lemma corder_separated l r : (l = [] \/ r = [] \/ (exists l' s, l = l' ++ [s] /\ ccc s = 0) \/ (exists s r', r = s :: r' /\ ccc s = 0)) ->
  corder (l ++ r) = corder l ++ corder r.
Proof.
  intros [->|[->|[(l' & s & -> & H)|(s & r' & -> & H)]]].
  - reflexivity.
  - cbn [corder fold_right]. rewrite !app_nil_r. reflexivity.
  - rewrite <- app_assoc. cbn [app]. rewrite !(corder_starter l' s) by assumption. rewrite <- app_assoc. reflexivity.
  - rewrite (corder_starter l s r') by assumption. f_equal.
    exact (eq_sym (corder_starter [] s r' H)).
Qed.
