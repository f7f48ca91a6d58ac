(** * Proofs: the whole work of normalization *)
From Coq Require Import Permutation Sorted.
From Verif Require Import Prelude DataTables PropsModel Utf8Model TextModel StdSortModel Utf8Spec UnicodeSpec GraphemeSpec TextSpec NormSpec FilterSpec
  PropsProofs LawfulProofs IterProofs DecompTables DecompProofs GraphemeProofs Uax29Proofs GraphemeText FilterProofs OrderProofs ComposeProofs NormProofs
  StdSortProofs TextsProofs CostModel CostProofs SortCostModel SortCostProofs WorkModel.
Require Import ZifyBool ZifyNat ArithRing.

(** ** One lookup *)
Lemma erase_bsearch_loop {R} (cmp : R -> Z) base fuel : forall l u, erase (bsearch_loop_c fuel cmp base l u) = bsearch_loop fuel cmp base l u.
Proof.
  induction fuel as [|f IH]; intros l u; [reflexivity|]. cbn [bsearch_loop_c bsearch_loop]. destruct (Nat.ltb l u); [|reflexivity].
  cbv zeta. destruct (nth_error base (Nat.div2 (l + u))) as [r|]; [|reflexivity]. rewrite erase_bind. cbn [one erase bind].
  destruct (cmp r <? 0); [apply IH|]. destruct (cmp r >? 0); [apply IH|reflexivity].
Qed.
Lemma erase_class c : erase (canonical_combining_class_resolve_c c) = canonical_combining_class_resolve c.
Proof.
  unfold canonical_combining_class_resolve_c, canonical_combining_class_resolve, class_resolve_in, bsearch_c, bsearch. rewrite erase_bind, erase_bsearch_loop.
  apply bind_ext; [reflexivity|]. intros [it|]; [apply erase_free|reflexivity].
Qed.
Lemma erase_canonical c : erase (canonical_decomposition_mapping_resolve_c c) = canonical_decomposition_mapping_resolve c.
Proof.
  unfold canonical_decomposition_mapping_resolve_c, canonical_decomposition_mapping_resolve, mapping_resolve_in, bsearch_c, bsearch. rewrite erase_bind, erase_bsearch_loop.
  apply bind_ext; [reflexivity|]. intros [it|]; reflexivity.
Qed.
Lemma erase_compat c : erase (compatibility_and_canonical_decomposition_mapping_resolve_c c) = compatibility_and_canonical_decomposition_mapping_resolve c.
Proof.
  unfold compatibility_and_canonical_decomposition_mapping_resolve_c, compatibility_and_canonical_decomposition_mapping_resolve, mapping_resolve_in, bsearch_c, bsearch.
  rewrite erase_bind, erase_bsearch_loop. apply bind_ext; [reflexivity|]. intros [it|]; reflexivity.
Qed.
Lemma erase_composition a b : erase (canonical_composition_mapping_resolve_c a b) = canonical_composition_mapping_resolve a b.
Proof.
  unfold canonical_composition_mapping_resolve_c, canonical_composition_mapping_resolve, composition_resolve_in, bsearch_c, bsearch. rewrite erase_bind, erase_bsearch_loop.
  apply bind_ext; [reflexivity|]. intros [it|]; [|reflexivity]. rewrite erase_bind, erase_free. reflexivity.
Qed.
Lemma erase_break c : erase (grapheme_cluster_break_resolve_c c) = grapheme_cluster_break_resolve c.
Proof.
  unfold grapheme_cluster_break_resolve_c, grapheme_cluster_break_resolve, break_resolve_in, bsearch_c, bsearch. rewrite erase_bind, erase_bsearch_loop.
  apply bind_ext; [reflexivity|]. intros [[[x y] v]|]; reflexivity.
Qed.
(** Each comparison halves the part that is left. *)
Lemma bsearch_loop_cost {R} (cmp : R -> Z) base k : forall fuel l u r c, (u - l < 2 ^ k)%nat ->
  bsearch_loop_c fuel cmp base l u = Ok (r, c) -> (c <= k)%nat.
Proof.
  induction k as [|k IH]; intros fuel l u r c H E; (destruct fuel as [|f]; [discriminate|]); cbn [bsearch_loop_c] in E.
  - cbn in H. destruct (Nat.ltb_spec l u); [lia|]. apply cret_inv in E. lia.
  - destruct (Nat.ltb_spec l u) as [L|L]; [|apply cret_inv in E; lia]. cbv zeta in E.
    pose proof (Nat.div2_odd (l + u)) as D. assert (Nat.b2n (Nat.odd (l + u)) <= 1)%nat by (destruct (Nat.odd (l + u)); cbn; lia).
    set (idx := Nat.div2 (l + u)) in *. clearbody idx. cbn [Nat.pow] in H.
    destruct (nth_error base idx) as [x|]; [|discriminate]. cinv E as y E1 E2. apply one_ok in E1.
    destruct (y <? 0); [apply IH in E2; lia|]. destruct (y >? 0); [apply IH in E2; lia|]. apply cret_inv in E2. lia.
Qed.
Lemma bsearch_cost {R} (cmp : R -> Z) base k r c : (length base < 2 ^ k)%nat -> bsearch_c cmp base = Ok (r, c) -> (c <= k)%nat.
Proof. intros H. apply bsearch_loop_cost. lia. Qed.

(** ** Erasure *)
Lemma erase_boundary a b : erase (is_grapheme_boundary_w a b) = is_grapheme_boundary a b.
Proof.
  unfold is_grapheme_boundary_w, is_grapheme_boundary, lookup. rewrite erase_bind, erase_one. apply bind_ext; [reflexivity|]. intros va.
  rewrite erase_bind, erase_one. reflexivity.
Qed.
Lemma erase_find_end_loop_w ops end_ fuel : forall a eog, erase (find_end_loop_w fuel ops end_ a eog) = find_end_loop fuel ops end_ a eog.
Proof.
  induction fuel as [|f IH]; intros a eog; [reflexivity|]. cbn [find_end_loop_w find_end_loop]. rewrite erase_bind, erase_one.
  apply bind_ext; [reflexivity|]. intros [|]; [reflexivity|]. rewrite erase_bind, erase_one. apply bind_ext; [reflexivity|].
  intros [b eog']. rewrite erase_bind, erase_boundary. apply bind_ext; [reflexivity|]. intros [|]; [reflexivity|].
  rewrite erase_bind, erase_one. apply bind_ext; [reflexivity|]. intros q. apply IH.
Qed.
Lemma erase_find_end_w fuel ops end_ eog : erase (find_end_of_grapheme_w fuel ops end_ eog) = find_end_of_grapheme fuel ops end_ eog.
Proof.
  unfold find_end_of_grapheme_w, find_end_of_grapheme. rewrite erase_bind, erase_one. apply bind_ext; [reflexivity|].
  intros [|]; [reflexivity|]. rewrite erase_bind, erase_one. apply bind_ext; [reflexivity|]. intros [a q].
  rewrite erase_bind, erase_one. apply bind_ext; [reflexivity|]. intros q'. apply erase_find_end_loop_w.
Qed.
Lemma erase_find_start_loop_w ops begin fuel : forall a w, erase (find_start_loop_w fuel ops begin a w) = find_start_loop fuel ops begin a w.
Proof.
  induction fuel as [|f IH]; intros a eog; [reflexivity|]. cbn [find_start_loop_w find_start_loop]. rewrite erase_bind, erase_one.
  apply bind_ext; [reflexivity|]. intros [|]; [reflexivity|]. rewrite erase_bind, erase_one. apply bind_ext; [reflexivity|].
  intros [b eog']. rewrite erase_bind, erase_boundary. apply bind_ext; [reflexivity|]. intros [|]; [reflexivity|].
  rewrite erase_bind, erase_one. apply bind_ext; [reflexivity|]. intros q. apply IH.
Qed.
Lemma erase_find_start_w fuel ops begin w : erase (find_start_of_grapheme_w fuel ops begin w) = find_start_of_grapheme fuel ops begin w.
Proof.
  unfold find_start_of_grapheme_w, find_start_of_grapheme. rewrite erase_bind, erase_one. apply bind_ext; [reflexivity|].
  intros [|]; [reflexivity|]. rewrite erase_bind, erase_one. apply bind_ext; [reflexivity|]. intros q.
  rewrite erase_bind, erase_one. apply bind_ext; [reflexivity|]. intros [a q']. apply erase_find_start_loop_w.
Qed.
Lemma erase_begin_w fuel ops b e : erase (grapheme_begin_w fuel ops b e) = grapheme_begin fuel ops b e.
Proof. unfold grapheme_begin_w. rewrite erase_bind, erase_find_end_w. reflexivity. Qed.
Lemma erase_end_w fuel ops b e : erase (grapheme_end_w fuel ops b e) = grapheme_end fuel ops b e.
Proof.
  unfold grapheme_end_w. rewrite erase_bind, erase_find_start_w. apply bind_ext; [reflexivity|]. intros w.
  rewrite erase_bind, erase_find_end_w. reflexivity.
Qed.
Lemma erase_step_w fuel ops g : erase (gi_step_w fuel ops g) = gi_step fuel ops g.
Proof.
  unfold gi_step_w, gi_step, gi_postinc, gi_inc. rewrite erase_bind, erase_find_end_w.
  destruct (find_end_of_grapheme fuel ops (g_end g) (g_eog g)); reflexivity.
Qed.
Lemma erase_copying {A} k (m : res A) : erase (copying k m) = m.
Proof. unfold copying. rewrite erase_bind, erase_free. destruct m; reflexivity. Qed.
Lemma erase_codepoint r c out : erase (codepoint_decomposition_w r c out) = codepoint_decomposition r c out.
Proof.
  unfold codepoint_decomposition_w, codepoint_decomposition, lookup. rewrite erase_bind, erase_one. apply bind_ext; [reflexivity|].
  intros [row|]; [|apply erase_copying]. rewrite erase_bind, erase_free. apply bind_ext; [reflexivity|]. intros l. apply erase_copying.
Qed.
Lemma erase_decompose_w fuel ops r g : erase (decompose_grapheme_w fuel ops r g) = decompose_grapheme fuel ops (codepoint_decomposition r) g.
Proof. apply erase_filter; intros; first [apply erase_one|apply erase_codepoint]. Qed.
Lemma erase_composition_loop end_ fuel : forall data i o c, erase (composition_loop_w fuel data i o end_ c) = composition_loop fuel data i o end_ c.
Proof.
  induction fuel as [|f IH]; intros data i o c; [reflexivity|]. cbn [composition_loop_w composition_loop]. destruct (i =? end_); [reflexivity|].
  rewrite erase_bind, erase_free. apply bind_ext; [reflexivity|]. intros a. rewrite erase_bind, erase_free. apply bind_ext; [reflexivity|]. intros i1.
  destruct (i1 =? end_).
  - rewrite erase_bind, erase_free. apply bind_ext; [reflexivity|]. intros d. rewrite erase_bind, erase_free. apply bind_ext; [reflexivity|]. intros o1. apply IH.
  - rewrite erase_bind, erase_free. apply bind_ext; [reflexivity|]. intros b. unfold lookup. rewrite erase_bind, erase_one. apply bind_ext; [reflexivity|]. intros [x|].
    + rewrite erase_bind, erase_free. apply bind_ext; [reflexivity|]. intros d. apply IH.
    + rewrite erase_bind, erase_free. apply bind_ext; [reflexivity|]. intros d. rewrite erase_bind, erase_free. apply bind_ext; [reflexivity|]. intros o1. apply IH.
Qed.
Lemma erase_order a b : erase (canonical_combining_order_w a b) = canonical_combining_order a b.
Proof. unfold canonical_combining_order_w, canonical_combining_order, lookup. rewrite erase_bind, erase_one. apply bind_ext; [reflexivity|]. intros x. rewrite erase_bind, erase_one. reflexivity. Qed.
Lemma erase_sort_class l : erase (sort_by_combining_class_w l) = sort_by_combining_class l.
Proof. apply erase_sort, erase_order. Qed.
(** It makes two lookups where sort_by_combining_class_c makes a comparison. *)
Lemma two_lookups_each l : sort_by_combining_class_w l = scale 2 (sort_by_combining_class_c l).
Proof.
  symmetry. apply scale_sort. intros a b. unfold canonical_combining_order_w, canonical_combining_order, lookup.
  destruct (canonical_combining_class_resolve a) as [x|u|]; [|reflexivity..]. destruct (canonical_combining_class_resolve b) as [y|u|]; reflexivity.
Qed.
Lemma sort_succeeds l : exists l', sort_by_combining_class l = Ok l'.
Proof. destruct (std_sort_spec _ ccc order_is_ccc 0 (zlen l) l) as (l' & E & S & SO); [unfold zlen; lia|lia|]. exists l'. exact E. Qed.
(** The counted sort of [l], the result as a function. *)
Definition sorted_by_class (l : list Z) : list Z := match sort_by_combining_class l with Ok l' => l' | _ => l end.
Lemma erase_sorting l : erase (sort_by_combining_class_w l) = Ok (sorted_by_class l).
Proof. rewrite erase_sort_class. unfold sorted_by_class. destruct (sort_succeeds l) as (l' & ->). reflexivity. Qed.
Lemma erase_decomposed_w append fuel ops r g out :
  erase (form_decomposed_w append fuel ops r g out) = form_decomposed sorted_by_class append fuel ops (codepoint_decomposition r) g out.
Proof.
  unfold form_decomposed_w, form_decomposed. rewrite erase_bind, erase_decompose_w. apply bind_ext; [reflexivity|]. intros [m d].
  rewrite erase_bind, erase_sorting. cbn [bind]. cbv zeta. rewrite erase_bind, erase_copying. reflexivity.
Qed.
Lemma erase_composed_w append fuel ops r g out :
  erase (form_composed_w append fuel ops r g out) = form_composed sorted_by_class append fuel ops (codepoint_decomposition r) g out.
Proof.
  unfold form_composed_w, form_composed. rewrite erase_bind, erase_decompose_w. apply bind_ext; [reflexivity|]. intros [m d].
  rewrite erase_bind, erase_sorting. cbn [bind]. cbv zeta. unfold canonical_composition_w. rewrite erase_bind, erase_composition_loop. apply bind_ext; [reflexivity|].
  intros [[x oi] y]. cbv zeta. rewrite erase_bind, erase_copying. reflexivity.
Qed.
Lemma erase_normalize_w fuel ops form form' b e out : (forall p o, erase (form p o) = form' p o) ->
  erase (normalize_w fuel ops form b e out) = normalize fuel ops form' b e out.
Proof.
  intros E. unfold normalize_w, normalize. rewrite erase_bind, erase_begin_w. apply bind_ext; [reflexivity|]. intros from.
  rewrite erase_bind, erase_end_w. apply bind_ext; [reflexivity|]. intros to.
  apply erase_filter; [intros; apply erase_neq|reflexivity|intros; apply erase_step_w|exact E].
Qed.

(** ** Counts *)
Lemma copying_ok {A} k (m : res A) a c : copying k m = Ok (a, c) -> m = Ok a /\ c = k.
Proof. unfold copying. intros E. cinv E as x E1 E2. apply free_ok in E1. destruct E1 as [-> ->]. injection E2 as -> <-. auto. Qed.
Lemma boundary_w a b : is_grapheme_boundary_w a b = Ok (brk a b, 2%nat).
Proof. unfold is_grapheme_boundary_w, lookup. rewrite !gcb_resolve. reflexivity. Qed.
(** The work of one grapheme, decomposed to [m] codepoints, beyond finding it. *)
Definition sort_bound (m : nat) : nat := (m * (7 * Nat.log2 m + 16))%nat.
Lemma one_order a b : one (canonical_combining_order a b) = Ok (ccc a <? ccc b, 1%nat).
Proof. rewrite order_is_ccc. reflexivity. Qed.
Lemma sort_work l l' c : sort_by_combining_class_w l = Ok (l', c) -> length l' = length l /\ (c <= 2 * sort_bound (length l))%nat.
Proof.
  intros E. destruct (std_sort_cost _ ccc order_is_ccc _ one_order 0 (zlen l) l) as (m' & k & E1 & E2 & K); [unfold zlen; lia|lia|].
  rewrite two_lookups_each in E. unfold sort_by_combining_class_c in E. rewrite E1 in E. injection E as -> <-.
  destruct (std_sort_spec _ ccc order_is_ccc 0 (zlen l) l) as (m2 & E3 & S & _); [unfold zlen; lia|lia|]. rewrite E2 in E3. injection E3 as <-.
  apply shuf_len in S. split; [unfold zlen in S; lia|]. unfold sort_bound. rewrite Z.sub_0_r in K. unfold zlen in K.
  assert (LG : Z.log2 (Z.of_nat (length l)) = Z.of_nat (Nat.log2 (length l))).
  { destruct (length l) as [|n] eqn:EL; [reflexivity|]. rewrite <- EL. apply Z.log2_unique; [lia|]. pose proof (Nat.log2_spec (length l) ltac:(lia)) as (A & B).
    rewrite <- Nat2Z.inj_succ, <- !(Nat2Z.inj_pow 2). split; lia. }
  rewrite LG in K. nia.
Qed.
Lemma composition_work end_ : forall fuel data i o c r k, i <= end_ -> composition_loop_w fuel data i o end_ c = Ok (r, k) ->
  let '(_, oi, _) := r in Z.of_nat k <= end_ - i /\ oi - o <= end_ - i.
Proof.
  induction fuel as [|f IH]; intros data i o c r k L E; [discriminate|]. cbn [composition_loop_w] in E.
  destruct (Z.eqb_spec i end_) as [->|NE]; [apply cret_inv in E; destruct E as [-> ->]; lia|].
  cinv E as a E1 E2. apply free_ok in E1. destruct E1 as [_ ->]. cinv E2 as i1 E3 E4. apply free_ok in E3. destruct E3 as [E3 ->]. apply padd_inv in E3. subst i1.
  destruct (Z.eqb_spec (i + 1) end_) as [EQ|N1].
  - cinv E4 as d E5 E6. apply free_ok in E5. destruct E5 as [_ ->]. cinv E6 as o1 E7 E8. apply free_ok in E7. destruct E7 as [E7 ->]. apply padd_inv in E7. subst o1.
    apply IH in E8; [|lia]. destruct r as [[x oi] y]. lia.
  - cinv E4 as b E5 E6. apply free_ok in E5. destruct E5 as [_ ->]. cinv E6 as q E7 E8. apply one_ok in E7. destruct E7 as [_ ->]. destruct q as [z|].
    + cinv E8 as d E9 E10. apply free_ok in E9. destruct E9 as [_ ->]. apply IH in E10; [|lia]. destruct r as [[x oi] y]. lia.
    + cinv E8 as d E9 E10. apply free_ok in E9. destruct E9 as [_ ->]. cinv E10 as o1 E11 E12. apply free_ok in E11. destruct E11 as [E11 ->]. apply padd_inv in E11. subst o1.
      apply IH in E12; [|lia]. destruct r as [[x oi] y]. lia.
Qed.
(** 35 = 1 (copied once) + 2 * 16 (sorted) + 1 (composed) + 1 (copied to the output). *)
Definition grapheme_work (m : nat) : nat := (m * (14 * Nat.log2 m + 35))%nat.
Lemma codepoint_work r full c out res k : (forall c out, codepoint_decomposition r c out = Ok (zlen (full c), out ++ full c)) ->
  codepoint_decomposition_w r c out = Ok (res, k) -> snd res = out ++ full c /\ k = (1 + length (full c))%nat.
Proof.
  intros H E. pose proof (erase_run _ _ _ E) as X. rewrite erase_codepoint, H in X. injection X as <-. split; [reflexivity|].
  unfold codepoint_decomposition_w in E. cinv E as mp E1 E2. apply one_ok in E1. destruct E1 as [_ ->]. destruct mp as [row|].
  - cinv E2 as l E3 E4. apply free_ok in E3. destruct E3 as [_ ->]. apply copying_ok in E4. destruct E4 as [E4 ->].
    injection E4 as _ E4. apply app_inv_head in E4. subst l. lia.
  - apply copying_ok in E2. destruct E2 as [E2 ->]. injection E2 as _ E2. apply app_inv_head in E2. rewrite <- E2. reflexivity.
Qed.

Section Cost.
Context (ops : cp_ops) (all : list Z) (pos : nat -> Z) (inside : nat -> Z -> Prop).
Context (L : lawful ops all pos inside).
Context (n : nat) (Hn : (n < length all)%nat) (e : Z) (He : inside n e).
Notation brk_at := (brk_at all).
Notation is_end := (is_end all n).

Definition find_end_work (i j : nat) : nat := 5 * (j - i) - 2 + (if (j =? n)%nat then 1 else 4).
Lemma find_end_loop_work : forall m fuel i j p q k, (j - i = m)%nat -> (0 < i <= j)%nat -> (j <= n)%nat -> inside i p ->
  (forall x, (i <= x < j)%nat -> brk_at x = false) -> (j = n \/ brk_at j = true) ->
  find_end_loop_w fuel ops e (nth (i - 1) all 0) p = Ok (q, k) -> inside j q /\ k = (5 * (j - i) + (if (j =? n)%nat then 1 else 4))%nat.
Proof.
  induction m as [|m IH]; intros fuel i j p q k Hm Hij Hj Hp In Out H; (destruct fuel as [|f]; [discriminate|]); cbn [find_end_loop_w] in H;
  rewrite (lw_eq _ _ _ _ L i n p e) in H by (assumption || lia); apply cbind_ok in H; destruct H as (x & k1 & k2 & X & H & ->);
  apply one_ok in X; destruct X as ([= <-] & ->).
  - assert (i = j) by lia. subst j. replace (i - i)%nat with 0%nat by lia. destruct (Nat.eqb_spec i n) as [->|Ne]; [injection H as <- <-; split; [assumption|reflexivity]|].
    rewrite (lw_deref _ _ _ _ L i p _ (nth_all all i ltac:(lia)) Hp) in H.
    apply cbind_ok in H. destruct H as ([b q1] & k3 & k4 & X & H & ->). apply one_ok in X. destruct X as ([= <- <-] & ->).
    rewrite boundary_w in H. fold (brk_at i) in H. destruct Out as [|Out]; [contradiction|]. rewrite Out in H.
    injection H as <- <-. split; [apply (lw_pos _ _ _ _ L); lia|reflexivity].
  - destruct (Nat.eqb_spec i n) as [->|Ne]; [lia|].
    rewrite (lw_deref _ _ _ _ L i p _ (nth_all all i ltac:(lia)) Hp) in H.
    apply cbind_ok in H. destruct H as ([b q1] & k3 & k4 & X & H & ->). apply one_ok in X. destruct X as ([= <- <-] & ->).
    rewrite boundary_w in H. fold (brk_at i) in H. rewrite (In i ltac:(lia)) in H.
    apply cbind_ok in H. destruct H as (br & k5 & k6 & X & H & ->). injection X as <- <-.
    rewrite (lw_step _ _ _ _ L i (pos i)) in H by (try apply (lw_pos _ _ _ _ L); lia).
    apply cbind_ok in H. destruct H as (q2 & k7 & k8 & X & H & ->). apply one_ok in X. destruct X as ([= <-] & ->).
    destruct (IH f (S i) j (pos (S i)) q k8) as (Q & ->); try lia; try assumption; [apply (lw_pos _ _ _ _ L); lia|intros; apply In; lia| |].
    { replace (S i - 1)%nat with i by lia. exact H. }
    split; [assumption|]. destruct (j =? n)%nat; lia.
Qed.
Lemma find_end_work_ok fuel i j p q k : is_end i j -> inside i p -> find_end_of_grapheme_w fuel ops e p = Ok (q, k) ->
  inside j q /\ k = find_end_work i j.
Proof.
  intros ((Hi & Hj) & In & Out) Hp H. unfold find_end_of_grapheme_w in H.
  rewrite (lw_eq _ _ _ _ L i n p e) in H by (assumption || lia). apply cbind_ok in H. destruct H as (x & k1 & k2 & X & H & ->).
  apply one_ok in X. destruct X as ([= <-] & ->). destruct (Nat.eqb_spec i n) as [->|Ne]; [lia|].
  rewrite (lw_deref _ _ _ _ L i p _ (nth_all all i ltac:(lia)) Hp) in H.
  apply cbind_ok in H. destruct H as ([b q1] & k3 & k4 & X & H & ->). apply one_ok in X. destruct X as ([= <- <-] & ->).
  rewrite (lw_step _ _ _ _ L i (pos i)) in H by (try apply (lw_pos _ _ _ _ L); lia).
  apply cbind_ok in H. destruct H as (q2 & k7 & k8 & X & H & ->). apply one_ok in X. destruct X as ([= <-] & ->).
  destruct (find_end_loop_work (j - S i) fuel (S i) j (pos (S i)) q k8) as (Q & ->); try lia; try assumption;
    [apply (lw_pos _ _ _ _ L); lia| |].
  { replace (S i - 1)%nat with i by lia. exact H. }
  split; [assumption|]. unfold find_end_work. destruct (j =? n)%nat; lia.
Qed.
Lemma find_end_work_end fuel p q k : inside n p -> find_end_of_grapheme_w fuel ops e p = Ok (q, k) -> q = p /\ k = 1%nat.
Proof.
  intros Hp H. unfold find_end_of_grapheme_w in H.
  rewrite (lw_eq _ _ _ _ L n n p e) in H by (assumption || lia). rewrite Nat.eqb_refl in H. injection H as <- <-. auto.
Qed.
Context (b : Z) (Hb : inside 0 b).
Lemma find_start_work fuel q k : (n = 0%nat \/ brk_at n = true) -> find_start_of_grapheme_w fuel ops b e = Ok (q, k) ->
  k = if (n =? 0)%nat then 1%nat else 7%nat.
Proof.
  intros Bk H. unfold find_start_of_grapheme_w in H.
  rewrite (lw_eq _ _ _ _ L n 0 e b) in H by (assumption || lia). apply cbind_ok in H. destruct H as (x & k1 & k2 & X & H & ->).
  apply one_ok in X. destruct X as ([= <-] & ->). destruct (Nat.eqb_spec n 0) as [Z|Ne]; [injection H as <- <-; reflexivity|].
  destruct Bk as [|Bk]; [contradiction|]. destruct fuel as [|f].
  { apply cbind_ok in H. destruct H as (? & ? & ? & _ & H & _). apply cbind_ok in H. destruct H as ([? ?] & ? & ? & _ & H & _). discriminate. }
  assert (En : n = S (n - 1)) by lia.
  assert (D : op_dec ops e = Ok (pos (n - 1))) by (apply (lw_dec _ _ _ _ L); [lia|rewrite <- En; assumption]). rewrite D in H. cbn [one cbind] in H.
  rewrite (lw_deref _ _ _ _ L (n - 1) (pos (n - 1)) _ (nth_all all (n - 1) ltac:(lia)) (lw_pos _ _ _ _ L (n - 1) ltac:(lia))) in H.
  cbn [one cbind find_start_loop_w] in H. rewrite (lw_eq _ _ _ _ L n 0 e b) in H by (assumption || lia).
  destruct (Nat.eqb_spec n 0); [lia|]. cbn [one cbind] in H.
  rewrite (lw_deref _ _ _ _ L n e _ (nth_all all n ltac:(lia)) He) in H. cbn [one cbind] in H.
  rewrite boundary_w in H. fold (brk_at n) in H. rewrite Bk in H. injection H as <- <-. reflexivity.
Qed.
Notation stands := (stands all inside n e).
Lemma step_work fuel g i j g' k : stands g i j -> gi_step_w fuel ops g = Ok (g', k) ->
  exists j', stands g' j j' /\ k = if (j =? n)%nat then 1%nat else find_end_work j j'.
Proof.
  intros (W & O & E & Hij & _) H. unfold gi_step_w in H. apply cbind_ok in H. destruct H as (q & k1 & k2 & X & H & ->). injection H as <- <-.
  rewrite E in X. destruct (Nat.eqb_spec j n) as [->|Ne].
  - destruct (find_end_work_end fuel (g_eog g) q k1 O X) as (-> & ->). exists n. split; [|lia].
    split; [exact O|]. split; [exact O|]. split; [exact E|]. split; [lia|]. intros. lia.
  - destruct (is_end_exists ops all pos inside L n Hn e He j ltac:(lia)) as (j' & J).
    destruct (find_end_work_ok fuel j j' (g_eog g) q k1 J O X) as (Q & ->). exists j'. pose proof J as ((J1 & J2) & _).
    split; [|lia]. split; [exact O|]. split; [exact Q|]. split; [exact E|]. split; [lia|]. intros; exact J.
Qed.

Lemma filter_work {Out} (operation : Z * Z -> Out -> counted (Z * Out)) (A B : nat) (X : list Z -> nat) fuel0 :
  (n < fuel0)%nat ->
  (forall p q i j out r k, (i <= j <= n)%nat -> inside i p -> inside j q -> operation (p, q) out = Ok (r, k) -> (k <= A * (j - i) + B + X (sub all i j))%nat) ->
  forall fuel g i j ge out counter r k, stands g i j -> stands ge n n ->
  filter_loop_c fuel (gi_neq_c fuel0 ops) (fun g => cret (gi_deref g, g)) (gi_step_w fuel0 ops) operation g ge out counter = Ok (r, k) ->
  if (i =? n)%nat then k = 2%nat
  else (find_end_work i j + k <= (9 + A) * (n - i) + (4 + B) * length (seg (sub all i n)) + list_sum (map X (seg (sub all i n))))%nat.
Proof.
  intros Hf0 Hop. induction fuel as [|f IH]; intros g i j ge out counter r k St Se H; [discriminate|]. cbn [filter_loop_c] in H.
  rewrite (neq_end_cost ops all pos inside L n Hn e He fuel0 g i j ge St Se Hf0) in H.
  apply cbind_ok in H. destruct H as (x & k1 & k2 & Y & H & ->). injection Y as <- <-. pose proof St as (W & O & E & Hij & Pr).
  destruct (Nat.eqb_spec i n) as [->|Ne]; cbn [negb] in H.
  { injection H as <- <-. reflexivity. }
  apply cbind_ok in H. destruct H as ([y g1] & k3 & k4 & Y & H & ->). injection Y as <- <- <-.
  apply cbind_ok in H. destruct H as ([m out'] & k5 & k6 & Y & H & ->).
  pose proof (Hop (g_where g) (g_eog g) i j out _ _ Hij W O Y) as K5.
  apply cbind_ok in H. destruct H as (ctr & k7 & k8 & Y' & H & ->). apply free_ok in Y'. destruct Y' as (_ & ->).
  apply cbind_ok in H. destruct H as (g2 & k9 & k10 & Y' & H & ->).
  destruct (step_work fuel0 g i j g2 k9 St Y') as (j' & St' & ->). pose proof St' as (_ & _ & _ & Hj' & _).
  pose proof (IH g2 j j' ge out' ctr r k10 St' Se H) as K10. specialize (Pr ltac:(lia)).
  rewrite (seg_step all n Hn (j - i) i j eq_refl Pr). cbn [length map list_sum fold_right]. fold (list_sum (map X (seg (sub all j n)))).
  pose proof Pr as ((P1 & P2) & _). unfold find_end_work at 1. clear - K5 K10 P1 P2.
  destruct (Nat.eqb_spec j n) as [->|Nj].
  - subst k10. rewrite sub_nil. cbn [seg length map list_sum fold_right]. generalize dependent (X (sub all i n)). intros. nia.
  - generalize dependent (X (sub all i j)). generalize dependent (list_sum (map X (seg (sub all j n)))). generalize dependent (length (seg (sub all j n))).
    generalize dependent (find_end_work j j'). intros fw s t K10 x K5.
    assert (N1 : (n - i = (n - j) + (j - i))%nat) by lia. rewrite N1. nia.
Qed.
Lemma decompose_work r full : (forall c out, codepoint_decomposition r c out = Ok (zlen (full c), out ++ full c)) ->
  forall fuel i j p q out counter x k, (i <= j <= n)%nat -> inside i p -> inside j q ->
  filter_loop_c fuel (fun p q => one (op_neq ops p q)) (fun p => one (op_deref ops p)) (fun p => one (op_step ops p))
    (codepoint_decomposition_w r) p q out counter = Ok (x, k) ->
  snd x = out ++ flat_map full (sub all i j) /\ k = (4 * (j - i) + 1 + length (flat_map full (sub all i j)))%nat.
Proof.
  intros HD. induction fuel as [|f IH]; intros i j p q out counter r0 k Hij Hp Hq H; [discriminate|]. cbn [filter_loop_c] in H.
  rewrite (op_neq_lawful _ _ _ _ i j p q L) in H by (assumption || lia).
  apply cbind_ok in H. destruct H as (x & k1 & k2 & X & H & ->). apply one_ok in X. destruct X as ([= <-] & ->).
  destruct (Nat.eqb_spec i j) as [->|Ne]; cbn [negb] in H.
  { injection H as <- <-. rewrite sub_nil. cbn [flat_map snd length]. rewrite app_nil_r. split; [reflexivity|lia]. }
  destruct (nth_ok all i ltac:(lia)) as (c & Ec). rewrite (lw_deref _ _ _ _ L i p c Ec Hp) in H.
  apply cbind_ok in H. destruct H as ([c' q1] & k3 & k4 & X & H & ->). apply one_ok in X. destruct X as ([= <- <-] & ->).
  apply cbind_ok in H. destruct H as ([m out'] & k5 & k6 & X & H & ->). apply (codepoint_work _ _ _ _ _ _ HD) in X. destruct X as (X & ->). cbn [snd] in X. subst out'.
  apply cbind_ok in H. destruct H as (ctr & k7 & k8 & X & H & ->). apply free_ok in X. destruct X as (_ & ->).
  rewrite (lw_step _ _ _ _ L i (pos i)) in H by (try apply (lw_pos _ _ _ _ L); lia).
  apply cbind_ok in H. destruct H as (q2 & k9 & k10 & X & H & ->). apply one_ok in X. destruct X as ([= <-] & ->).
  destruct (IH (S i) j (pos (S i)) q _ ctr r0 k10 ltac:(lia) (lw_pos _ _ _ _ L (S i) ltac:(lia)) Hq H) as (Q & ->).
  rewrite (sub_cons all i j c) by (assumption || lia). cbn [flat_map]. rewrite app_length, app_assoc. split; [exact Q|lia].
Qed.
Lemma decomposed_work r full append fuel p q i j out x k : (forall c out, codepoint_decomposition r c out = Ok (zlen (full c), out ++ full c)) ->
  (i <= j <= n)%nat -> inside i p -> inside j q -> form_decomposed_w append fuel ops r (p, q) out = Ok (x, k) ->
  (k <= 4 * (j - i) + 1 + grapheme_work (length (flat_map full (sub all i j))))%nat.
Proof.
  intros HD Hij Hp Hq H. unfold form_decomposed_w in H. cinv H as md X1 X2. destruct md as [m d].
  unfold decompose_grapheme_w in X1. cbn [fst snd] in X1. apply (decompose_work r full HD _ i j) in X1; try assumption. cbn [snd app] in X1. destruct X1 as (X1 & ->). subst d.
  cinv X2 as s X3 X4. apply sort_work in X3. destruct X3 as (SL & SW). cinv X4 as o X5 X6. apply copying_ok in X5. destruct X5 as (_ & ->).
  apply cret_inv in X6. destruct X6 as (_ & ->). rewrite SL. unfold grapheme_work, sort_bound in *. nia.
Qed.
Lemma composed_work r full append fuel p q i j out x k : (forall c out, codepoint_decomposition r c out = Ok (zlen (full c), out ++ full c)) ->
  (i <= j <= n)%nat -> inside i p -> inside j q -> form_composed_w append fuel ops r (p, q) out = Ok (x, k) ->
  (k <= 4 * (j - i) + 1 + grapheme_work (length (flat_map full (sub all i j))))%nat.
Proof.
  intros HD Hij Hp Hq H. unfold form_composed_w in H. cinv H as md X1 X2. destruct md as [m d].
  unfold decompose_grapheme_w in X1. cbn [fst snd] in X1. apply (decompose_work r full HD _ i j) in X1; try assumption. cbn [snd app] in X1. destruct X1 as (X1 & ->). subst d.
  cinv X2 as s X3 X4. apply sort_work in X3. destruct X3 as (SL & SW). cinv X4 as o X5 X6. destruct o as [[d oi] cnt].
  unfold canonical_composition_w in X5. apply composition_work in X5; [|unfold zlen; lia]. destruct X5 as (CW & OI).
  cbv zeta in X6. cinv X6 as o2 X7 X8. apply copying_ok in X7. destruct X7 as (_ & ->). apply cret_inv in X8. destruct X8 as (_ & ->).
  rewrite firstn_length. unfold zlen in *. rewrite SL in *. unfold grapheme_work, sort_bound in *. nia.
Qed.
End Cost.

Section Text.
Context (ops : cp_ops) (b e : Z) (cs : list Z) (c : Z) (pos : nat -> Z) (inside : nat -> Z -> Prop).
Context (T : text_in ops b e cs c pos inside).
Context (B : cs = [] \/ pairwise_boundary cs c).
Let L := ti_lawful _ _ _ _ _ _ _ T.
Let n := length cs.
Let all := cs ++ [c].
Lemma normalize_work (operation : Z * Z -> list Z -> counted (Z * list Z)) (operation' : Z * Z -> list Z -> res (Z * list Z)) A0 B0 X fuel out r :
  (forall p o, erase (operation p o) = operation' p o) ->
  (forall p q i j out r k, (i <= j <= n)%nat -> inside i p -> inside j q -> operation (p, q) out = Ok (r, k) -> (k <= A0 * (j - i) + B0 + X (sub all i j))%nat) ->
  (n < fuel)%nat -> normalize fuel ops operation' b e out = Ok r ->
  exists k, normalize_w fuel ops operation b e out = Ok (r, k) /\
    (k <= (9 + A0) * n + (4 + B0) * length (seg cs) + 8 + list_sum (map X (seg cs)))%nat.
Proof.
  intros E Hop Hf R. rewrite <- (erase_normalize_w fuel ops operation operation' b e out E) in R. destruct (erase_ok _ _ R) as (k & Q).
  exists k. split; [exact Q|]. unfold normalize_w in Q. pose proof (text_n cs c) as Hn. fold n all in Hn.
  pose proof (text_e ops b e cs c pos inside T) as He.
  assert (Hb : inside 0%nat b) by (rewrite (ti_begin _ _ _ _ _ _ _ T); apply (lw_pos _ _ _ _ L); fold all; lia).
  assert (B' : n = 0%nat \/ brk_at all n = true).
  { apply boundary_after_or in B. destruct B as [->|B1]; [left; reflexivity|]. destruct (Nat.eq_dec n 0) as [|Ne]; [left; assumption|right].
    unfold all, n. rewrite brk_at_last; [exact B1|]. intros Z. apply Ne. unfold n. rewrite Z. reflexivity. }
  apply cbind_ok in Q. destruct Q as (g0 & k1 & k2 & Q1 & Q & ->). apply cbind_ok in Q. destruct Q as (ge & k3 & k4 & Q2 & Q & ->).
  assert (SE : stands all inside n e ge n n /\ k3 = if (n =? 0)%nat then 2%nat else 8%nat).
  { destruct (text_grapheme_end ops b e cs c pos inside T fuel Hf) as (s & ge' & EE & W & _ & Qq & Rr & I).
    rewrite <- (erase_end_w fuel ops b e), Q2 in EE. injection EE as <-.
    assert (s = length cs) by (apply I, boundary_after_or, B). subst s. split.
    - split; [rewrite W; apply (lw_pos _ _ _ _ L); fold all; exact Hn|]. split; [rewrite Qq; exact He|]. split; [exact Rr|]. split; lia.
    - unfold grapheme_end_w in Q2. apply cbind_ok in Q2. destruct Q2 as (w & k5 & k6 & Y & Q2 & ->).
      apply cbind_ok in Q2. destruct Q2 as (w' & k7 & k8 & Y' & Q2 & ->). injection Q2 as _ <-.
      pose proof (find_start_work ops all pos inside L n Hn e He b Hb fuel w k5 B' Y) as ->.
      destruct (find_end_work_end ops all pos inside L n Hn e He fuel e w' k7 He Y') as (_ & ->). destruct (n =? 0)%nat; reflexivity. }
  destruct SE as (SE & ->).
  assert (SB : exists j, stands all inside n e g0 0%nat j /\ k1 = if (n =? 0)%nat then 1%nat else find_end_work n 0 j).
  { unfold grapheme_begin_w in Q1. apply cbind_ok in Q1. destruct Q1 as (w & k5 & k6 & Y & Q1 & ->). injection Q1 as <- <-.
    destruct (Nat.eqb_spec n 0) as [Z|Ne].
    - assert (Hb' : inside n b) by (rewrite Z; exact Hb).
      destruct (find_end_work_end ops all pos inside L n Hn e He fuel b w k5 Hb' Y) as (-> & ->). exists n. split; [|lia].
      split; [exact Hb|]. split; [exact Hb'|]. split; [reflexivity|]. split; lia.
    - destruct (is_end_exists ops all pos inside L n Hn e He 0%nat ltac:(lia)) as (j & J). exists j. pose proof J as ((J1 & J2) & _).
      destruct (find_end_work_ok ops all pos inside L n Hn e He fuel 0%nat j b w k5 J Hb Y) as (O & ->).
      split; [|lia]. split; [exact Hb|]. split; [exact O|]. split; [reflexivity|]. split; [lia|]. intros; exact J. }
  destruct SB as (j & SB & ->).
  pose proof (filter_work ops all pos inside L n Hn e He operation A0 B0 X fuel Hf Hop fuel g0 0%nat j ge out 0 r k4 SB SE Q) as K4.
  assert (SC : sub all 0 n = cs) by apply text_sub. rewrite SC in K4.
  rewrite (Nat.eqb_sym 0 n) in K4. destruct (Nat.eqb_spec n 0) as [Z|Ne]; lia.
Qed.
End Text.
