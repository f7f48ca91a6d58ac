(** * Proofs: a second normalization in another form, and the size of form C *)
From Coq Require Import Permutation Sorted Relations.
From Verif Require Import Prelude DataTables UcdTables PropsModel Utf8Model TextModel Utf8Spec UnicodeSpec GraphemeSpec TextSpec NormSpec FilterSpec
  PropsProofs LawfulProofs DecompTables DecompProofs GraphemeProofs Uax29Proofs GraphemeText FilterProofs OrderProofs ComposeProofs
  NormData HangulProofs NormProofs NfcProofs NormForms EncodeProofs EncodeText NormUtf8 NormText TextsProofs.
Require Import ZifyBool ZifyNat.

(** ** Second pass, with the mappings [full2], over what a first pass with [full1] made *)
Section Second.
Context (full1 full2 : Z -> list Z).
Context (full1_ne : forall c, full1 c <> []).
Context (full1_head : forall c x t, full1 c = x :: t -> glue x -> joiner c).
Context (full1_control : forall c, control c -> full1 c = [c]).
Context (full2_ne : forall c, full2 c <> []).
Context (full2_head : forall c x t, full2 c = x :: t -> glue x -> joiner c).
Context (full2_control : forall c, control c -> full2 c = [c]).
Context (full2_fix : forall c x, In x (full2 c) -> full2 x = [x]).
Context (full12 : forall c x, In x (full1 c) -> full2 x = [x]).
Context (full2_compose : forall l, flat_map full2 (compose l) = flat_map full2 l).
Lemma second_d_fix cs : flat_map full2 (form_d_of full1 cs) = form_d_of full1 cs.
Proof.
  apply flat_map_id. intros x Hx. eapply Permutation_in in Hx; [|symmetry; apply form_d_perm].
  apply in_flat_map in Hx. destruct Hx as (c & _ & Hx). eauto.
Qed.
Lemma second_c_fix cs : flat_map full2 (form_c_of full1 cs) = form_d_of full1 cs.
Proof. rewrite (form_c_eq full1) by assumption. rewrite full2_compose. apply second_d_fix. Qed.
Lemma second_d_iff cs u : flat_map full2 u = form_d_of full1 cs ->
  (form_d_of full2 u = form_d_of full1 cs <-> forall g, In g (seg u) -> marks_last (flat_map full2 g)).
Proof.
  intros E. pose proof (form_d_ordered_iff full2 full2_ne full2_head full2_control u) as H.
  rewrite E, (form_d_self full1 full1_ne full1_head full1_control) in H. rewrite H.
  split; intros X g I; apply marks_last_iff; apply X; assumption.
Qed.
Lemma second_c_iff cs u : flat_map full2 u = form_d_of full1 cs ->
  (form_c_of full2 u = form_c_of full1 cs <-> forall g, In g (seg u) -> marks_last (flat_map full2 g)).
Proof.
  intros E. rewrite <- (second_d_iff cs u E). split; intros X.
  - rewrite <- (form_c_full full2 full2_ne full2_head full2_control full2_fix full2_compose u), X. apply second_c_fix.
  - rewrite (form_c_eq full1), (form_c_eq full2) by assumption. rewrite X. reflexivity.
Qed.
End Second.

(** ** Compatibility after canonical *)
Lemma compat_same_class_rows : forallb same_class compatibility_and_canonical_decomposition_mapping_data = true.
Proof. vm_cast_no_check (eq_refl true). Qed.
Lemma mark_compat_class c x : ccc c <> 0 -> In x (full_compat c) -> ccc x = ccc c.
Proof.
  intros N Hx. destruct (table_full_row _ _ c compat_table) as [F|I].
  - unfold full_compat in Hx. rewrite F in Hx. destruct Hx as [<-|[]]. reflexivity.
  - pose proof compat_same_class_rows as Q. rewrite forallb_forall in Q. specialize (Q _ I). cbn [same_class] in Q.
    rewrite removelast_snoc, fast_ccc_eq in Q. rewrite (proj2 (Z.eqb_neq (ccc c) 0) N) in Q. cbn [orb] in Q.
    rewrite forallb_forall in Q. specialize (Q x Hx). rewrite fast_ccc_eq in Q. lia.
Qed.
Lemma exchange_compat l l' : exchange l l' -> corder (flat_map full_compat l) = corder (flat_map full_compat l').
Proof.
  intros [p a b q i j A B H]. apply has_ccc_eq in A, B. rewrite !flat_map_app. cbn [flat_map].
  rewrite !corder_app. f_equal. apply fold_fold_comm. intros x y Hx Hy.
  rewrite (mark_compat_class a x), (mark_compat_class b y) by (assumption || lia). lia.
Qed.
Lemma corder_compat l : corder (flat_map full_compat (corder l)) = corder (flat_map full_compat l).
Proof.
  pose proof (corder_steps l) as S. induction S as [x y X|x|x y z _ IH1 _ IH2]; [symmetry; apply exchange_compat; assumption|reflexivity|congruence].
Qed.
Lemma compat_after_canonical cs u : corder (flat_map full_compat u) = corder (flat_map full_compat (form_d_of full_canonical cs)) ->
  (forall g, In g (seg cs) -> marks_last (flat_map full_canonical g)) ->
  (forall g, In g (seg cs) -> marks_last (flat_map full_compat g)) ->
  (form_d_of full_compat u = form_d_of full_compat cs <-> forall g, In g (seg u) -> marks_last (flat_map full_compat g)).
Proof.
  intros E M1 M2.
  assert (E1 : form_d_of full_canonical cs = corder (flat_map full_canonical cs)).
  { apply (form_d_ordered_iff full_canonical full_canonical_ne canonical_head canonical_control). intros g I. apply marks_last_iff. auto. }
  assert (E2 : form_d_of full_compat cs = corder (flat_map full_compat cs)).
  { apply (form_d_ordered_iff full_compat full_compat_ne compat_head compat_control). intros g I. apply marks_last_iff. auto. }
  rewrite E1, corder_compat, compat_all in E. rewrite E2, <- E.
  rewrite (form_d_ordered_iff full_compat full_compat_ne compat_head compat_control u).
  split; intros X g I; apply marks_last_iff; apply X; assumption.
Qed.

(** ** Nothing left to compose *)
Lemma composeF_id t : forall a, (forall l x y r, a :: t = l ++ x :: y :: r -> comp x y = None) -> composeF a t = a :: t.
Proof.
  induction t as [|b t IH]; intros a H; [reflexivity|]. cbn [composeF]. rewrite (H [] a b t eq_refl). f_equal.
  apply IH. intros l x y r E. apply (H (a :: l) x y r). rewrite E. reflexivity.
Qed.
Lemma compose_id l : (forall p x y r, l = p ++ x :: y :: r -> comp x y = None) -> compose l = l.
Proof. destruct l as [|a t]; [reflexivity|]. apply composeF_id. Qed.
Lemma compose_twice l : compose (compose l) = compose l.
Proof. apply compose_id. intros p x y r E. eapply compose_adjacent. exact E. Qed.

(** ** Form C is at most three times as long *)
Lemma composeF_shorter t : forall a l x y r, a :: t = l ++ x :: y :: r -> comp x y <> None ->
  (length (composeF a t) <= length t)%nat.
Proof.
  induction t as [|b t IH]; intros a l x y r E N.
  - destruct l as [|? [|? ?]]; discriminate.
  - cbn [composeF]. destruct (comp a b) as [c|] eqn:C.
    + pose proof (composeF_length t c). cbn [length]. lia.
    + destruct l as [|z l]; cbn [app] in E.
      * injection E as -> -> ->. contradiction.
      * injection E as -> E. cbn [length]. specialize (IH b l x y r E N). lia.
Qed.
Lemma compose_shorter l p x y r : l = p ++ x :: y :: r -> comp x y <> None -> (length (compose l) < length l)%nat.
Proof.
  intros E N. destruct l as [|a t]; [destruct p; discriminate|]. cbn [compose length].
  pose proof (composeF_shorter t a p x y r E N). lia.
Qed.
Lemma isort_starters_first l : exists m, isort l = of_class 0 l ++ m.
Proof.
  induction l as [|c l (m & IH)]; [exists []; reflexivity|]. cbn [isort fold_right]. fold (isort l). rewrite IH.
  cbn [of_class List.filter]. fold (of_class 0 l). destruct (Z.eqb_spec (ccc c) 0) as [Z0|N].
  - exists m. cbn [app]. destruct (of_class 0 l ++ m) as [|y t]; [reflexivity|]. cbn [insert]. pose proof (ccc_nonneg y).
    rewrite Z0. destruct (Z.leb_spec 0 (ccc y)); [reflexivity|lia].
  - exists (insert c m). clear IH. assert (F : Forall (fun x => ccc x = 0) (of_class 0 l)).
    { apply Forall_forall. intros x I. unfold of_class in I. apply filter_In in I. lia. }
    induction F as [|x o X F IH]; [reflexivity|]. cbn [app insert]. pose proof (ccc_nonneg c).
    destruct (Z.leb_spec (ccc c) (ccc x)); [lia|]. f_equal. exact IH.
Qed.
Definition in_classes (c : Z) : bool := in_ranges ucd_grapheme_break c.
Lemma unlisted_other c : in_classes c = false -> gcb_of c = G_OTHER.
Proof.
  intros H. apply gcb_spec. right. split; [|reflexivity]. intros lo hi v I B. unfold in_classes, in_ranges in H.
  assert (X : existsb (fun r => (fst (fst r) <=? c) && (c <=? snd (fst r))) ucd_grapheme_break = true).
  { apply existsb_exists. exists (lo, hi, v). split; [assumption|]. cbn [fst snd]. lia. }
  congruence.
Qed.
(** Four: of class Other, and recomposes.  Three: of class Other, or begins with two starters that compose. *)
Definition wide_ok (row : list Z) : bool :=
  match removelast (tl row) with
  | [_] | [_; _] => true
  | [x; y; _] => negb (in_classes (row_at row 0)) ||
      ((fast_ccc x =? 0) && (fast_ccc y =? 0) && match comp x y with Some _ => true | None => false end)
  | [x; y; z; t] as d => negb (in_classes (row_at row 0)) && (length (compose (isort d)) <=? 3)%nat
  | _ => false
  end.
Lemma wide_rows : forallb wide_ok canonical_decomposition_mapping_data = true.
Proof. vm_cast_no_check (eq_refl true). Qed.
Lemma wide c : (length (full_canonical c) <= 2)%nat \/
  (exists x y z, full_canonical c = [x; y; z] /\ (gcb_of c = G_OTHER \/ ccc x = 0 /\ ccc y = 0 /\ comp x y <> None)) \/
  (length (full_canonical c) = 4%nat /\ gcb_of c = G_OTHER /\ (length (compose (isort (full_canonical c))) <= 3)%nat).
Proof.
  destruct (table_full_row _ _ c canonical_table) as [F|I].
  - left. unfold full_canonical. rewrite F. cbn [length]. lia.
  - pose proof wide_rows as Q. rewrite forallb_forall in Q. specialize (Q _ I). unfold wide_ok in Q. cbn [tl row_at nth] in Q.
    rewrite removelast_snoc in Q. fold (full_canonical c) in Q. change (table_full canonical_decomposition_mapping_data c) with (full_canonical c) in Q.
    destruct (full_canonical c) as [|x [|y [|z [|t [|? ?]]]]]; try discriminate Q; [left; cbn [length]; lia|left; cbn [length]; lia|right; left|right; right].
    + exists x, y, z. split; [reflexivity|]. destruct (in_classes c) eqn:X; [right|left; apply unlisted_other; assumption].
      cbn [negb orb] in Q. rewrite !fast_ccc_eq in Q. destruct (comp x y); [|rewrite andb_false_r in Q; discriminate].
      split; [lia|]. split; [lia|discriminate].
    + split; [reflexivity|]. apply andb_prop in Q. destruct Q as [Q1 Q2]. split; [|lia].
      apply unlisted_other. destruct (in_classes c); [discriminate|reflexivity].
Qed.
Definition unbroken (g : list Z) : Prop := forall l a b r, g = l ++ a :: b :: r -> brk a b = false.
Lemma unbroken_tail a g : unbroken (a :: g) -> unbroken g.
Proof. intros U l x y r E. apply (U (a :: l) x y r). rewrite E. reflexivity. Qed.
Lemma after_other t : forall a, unbroken (a :: t) -> gcb_of a <> G_PREPEND -> Forall (fun c => gcb_of c <> G_OTHER) t.
Proof.
  induction t as [|b t IH]; intros a U N; [constructor|]. pose proof (U [] a b t eq_refl) as B. unfold brk in B.
  constructor.
  - intros E. rewrite E in B. destruct (gcb_of a); try discriminate B. contradiction.
  - apply (IH b (unbroken_tail _ _ U)). intros E. rewrite E in B. destruct (gcb_of a); try discriminate B. contradiction.
Qed.
Lemma one_other g p o r : unbroken g -> g = p ++ o :: r -> gcb_of o = G_OTHER -> Forall (fun c => gcb_of c <> G_OTHER) (p ++ r).
Proof.
  intros U E O.
  assert (T : forall p o r, g = p ++ o :: r -> gcb_of o = G_OTHER -> Forall (fun c => gcb_of c <> G_OTHER) r).
  { clear - U. intros p. revert g U. induction p as [|a p IH]; intros g U o r -> O.
    - apply (after_other r o U). congruence.
    - apply (IH (p ++ o :: r) (unbroken_tail _ _ U) o r eq_refl O). }
  apply Forall_app. split; [|exact (T p o r E O)]. apply Forall_forall. intros x I X. apply in_split in I. destruct I as (p1 & p2 & ->).
  rewrite <- app_assoc in E. cbn [app] in E. specialize (T _ _ _ E X). rewrite Forall_app in T. destruct T as [_ T].
  inversion T; subst. contradiction.
Qed.
Lemma flat_at_most (f : Z -> list Z) n l : (forall c, In c l -> (length (f c) <= n)%nat) -> (length (flat_map f l) <= n * length l)%nat.
Proof.
  intros H. induction l as [|c l IH]; [cbn; lia|]. cbn [flat_map length]. rewrite app_length.
  pose proof (H c (or_introl eq_refl)). specialize (IH ltac:(intros; apply H; right; assumption)). lia.
Qed.
Lemma of_class_app k l r : of_class k (l ++ r) = of_class k l ++ of_class k r.
Proof. apply filter_app. Qed.
Lemma grapheme_thrice g : unbroken g -> (length (compose (isort (flat_map full_canonical g))) <= 3 * length g)%nat.
Proof.
  intros U. pose proof (compose_length (isort (flat_map full_canonical g))) as C. rewrite isort_length in C.
  destruct (Exists_dec (fun c => length (full_canonical c) = 4%nat) g ltac:(intros; apply Nat.eq_dec)) as [X|N].
  2:{ assert (L : (length (flat_map full_canonical g) <= 3 * length g)%nat); [|lia]. apply flat_at_most. intros c I.
      destruct (wide c) as [H|[(x & y & z & -> & _)|(H & _)]]; [lia|cbn; lia|]. exfalso. apply N. apply Exists_exists. exists c. auto. }
  apply Exists_exists in X. destruct X as (o & I & W). destruct (wide o) as [H|[(x & y & z & H & _)|(_ & O & S)]]; [lia|rewrite H in W; discriminate|].
  apply in_split in I. destruct I as (p & r & ->). pose proof (one_other _ p o r U eq_refl O) as F. rewrite Forall_forall in F.
  destruct (Exists_dec (fun c => length (full_canonical c) = 3%nat) (p ++ r) ltac:(intros; apply Nat.eq_dec)) as [X|N].
  - apply Exists_exists in X. destruct X as (c & I & W'). pose proof (F c I) as NO.
    destruct (wide c) as [H|[(x & y & z & H & [Q|(X0 & Y0 & XY)])|(H & _)]]; [lia|contradiction| |lia].
    assert (J : In c (p ++ o :: r)) by (apply in_or_app; apply in_app_or in I; destruct I; [left|right; right]; assumption).
    assert (L : (length (flat_map full_canonical (p ++ o :: r)) <= 3 * length (p ++ o :: r) + 1)%nat).
    { rewrite flat_map_app. cbn [flat_map]. rewrite !app_length, W. cbn [length].
      assert (B : forall l, (forall c, In c l -> In c (p ++ r)) -> (length (flat_map full_canonical l) <= 3 * length l)%nat).
      { intros l Hl. apply flat_at_most. intros e E. pose proof (F e (Hl e E)).
        destruct (wide e) as [?|[(? & ? & ? & -> & _)|(_ & ? & _)]]; [lia|cbn; lia|contradiction]. }
      pose proof (B p ltac:(intros; apply in_or_app; left; assumption)). pose proof (B r ltac:(intros; apply in_or_app; right; assumption)). lia. }
    apply in_split in J. destruct J as (q & s & E). rewrite E in *. clear E.
    assert (SH : (length (compose (isort (flat_map full_canonical (q ++ c :: s)))) < length (isort (flat_map full_canonical (q ++ c :: s))))%nat).
    { destruct (isort_starters_first (flat_map full_canonical (q ++ c :: s))) as (m & E). rewrite E.
      rewrite flat_map_app. cbn [flat_map]. rewrite H, !of_class_app.
      assert (A : exists a, of_class 0 [x; y; z] = x :: y :: a) by (unfold of_class; cbn [List.filter]; rewrite X0, Y0; cbn [Z.eqb]; eexists; reflexivity).
      destruct A as (a & ->).
      eapply (compose_shorter _ (of_class 0 (flat_map full_canonical q)) x y); [|assumption].
      rewrite <- !app_assoc. cbn [app]. reflexivity. }
    rewrite isort_length in SH. lia.
  - assert (W2 : forall c, In c (p ++ r) -> (length (full_canonical c) <= 2)%nat).
    { intros c I. destruct (wide c) as [?|[(? & ? & ? & H & _)|(_ & O2 & _)]]; [lia| |exfalso; exact (F c I O2)].
      exfalso. apply N. apply Exists_exists. exists c. split; [assumption|]. rewrite H. reflexivity. }
    destruct (Nat.eq_dec (length (p ++ r)) 0) as [Z0|NZ].
    + apply length_zero_iff_nil, app_eq_nil in Z0. destruct Z0 as [-> ->]. cbn [app flat_map length]. rewrite app_nil_r. lia.
    + assert (L : (length (flat_map full_canonical (p ++ o :: r)) <= 3 * length (p ++ o :: r))%nat); [|lia].
      rewrite flat_map_app. cbn [flat_map]. rewrite !app_length, W. cbn [length].
      pose proof (flat_at_most full_canonical 2 p ltac:(intros; apply W2; apply in_or_app; left; assumption)).
      pose proof (flat_at_most full_canonical 2 r ltac:(intros; apply W2; apply in_or_app; right; assumption)).
      rewrite app_length in NZ. lia.
Qed.
Lemma form_c_thrice cs : (length (form_c_of full_canonical cs) <= 3 * length cs)%nat.
Proof.
  unfold form_c_of, pieces. rewrite !map_map. rewrite <- (seg_concat cs) at 2.
  assert (U : forall g, In g (seg cs) -> unbroken g) by (intros g I l a b r ->; exact (seg_inside cs _ l a b r I eq_refl)).
  induction (seg cs) as [|g gs IH]; [cbn; lia|]. cbn [map concat]. rewrite !app_length.
  pose proof (grapheme_thrice g (U g (or_introl eq_refl))). specialize (IH ltac:(intros; apply U; right; assumption)). lia.
Qed.
