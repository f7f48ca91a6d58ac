(** * Proofs about the property lookups *)
From Coq Require Import Sorting.Sorted Relations.
From Verif Require Import Prelude DataTables UcdTables PropsModel TextModel UnicodeSpec.

(** Keep the tables folded during proofs ([vm_compute] still sees them). *)
Global Opaque canonical_combining_class_data canonical_decomposition_mapping_data
  compatibility_and_canonical_decomposition_mapping_data canonical_composition_mapping_data
  grapheme_cluster_break_data ucd_ccc ucd_decomposition ucd_composition_exclusions
  ucd_grapheme_break.

(** ** bsearch on an ordered table *)
Definition ordered {R} (cmp : R -> Z) (base : list R) : Prop :=
  forall i j r1 r2, (i < j)%nat -> nth_error base i = Some r1 -> nth_error base j = Some r2 ->
    cmp r1 <= 0 -> cmp r2 < 0.

Lemma bsearch_loop_correct {R} (cmp : R -> Z) base : ordered cmp base ->
  forall fuel l u, (u - l < fuel)%nat -> (u <= length base)%nat ->
  (forall i r, nth_error base i = Some r -> cmp r = 0 -> (l <= i < u)%nat) ->
  (exists r, bsearch_loop fuel cmp base l u = Ok (Some r) /\ In r base /\ cmp r = 0) \/
  (bsearch_loop fuel cmp base l u = Ok None /\ forall r, In r base -> cmp r <> 0).
Proof.
  intros O. induction fuel as [|fuel IH]; intros l u Hf Hu W; [lia|].
  cbn [bsearch_loop]. destruct (Nat.ltb_spec l u) as [L|L].
  - pose proof (Nat.div2_odd (l + u)) as D. set (m := Nat.div2 (l + u)) in *.
    assert (Hm : (l <= m < u)%nat) by (destruct (Nat.odd (l + u)); cbn in D; lia).
    destruct (nth_error base m) as [r|] eqn:E.
    2:{ apply nth_error_None in E. lia. }
    destruct (Z.ltb_spec (cmp r) 0) as [C|C].
    + apply IH; [lia|lia|]. intros i r' Hi H0. specialize (W i r' Hi H0).
      destruct (Nat.lt_trichotomy i m) as [?|[->|?]]; [lia| |].
      * rewrite E in Hi. injection Hi as <-. lia.
      * pose proof (O m i r r' ltac:(lia) E Hi ltac:(lia)). lia.
    + destruct (Z.gtb_spec (cmp r) 0) as [C'|C'].
      * apply IH; [lia|lia|]. intros i r' Hi H0. specialize (W i r' Hi H0).
        destruct (Nat.lt_trichotomy i m) as [?|[->|?]]; [| |lia].
        -- pose proof (O i m r' r ltac:(lia) Hi E ltac:(lia)). lia.
        -- rewrite E in Hi. injection Hi as <-. lia.
      * left. exists r. split; [reflexivity|]. split; [eapply nth_error_In; eassumption|lia].
  - right. split; [reflexivity|]. intros r Hr H0. apply In_nth_error in Hr. destruct Hr as [i Hi].
    specialize (W i r Hi H0). lia.
Qed.
Lemma bsearch_correct {R} (cmp : R -> Z) base : ordered cmp base ->
  (exists r, bsearch cmp base = Ok (Some r) /\ In r base /\ cmp r = 0) \/
  (bsearch cmp base = Ok None /\ forall r, In r base -> cmp r <> 0).
Proof.
  intros O. apply bsearch_loop_correct; [assumption|lia|lia|].
  intros i r Hi _. assert (nth_error base i <> None) by congruence. apply nth_error_Some in H. lia.
Qed.
Lemma ordered_unique {R} (cmp : R -> Z) base r1 r2 : ordered cmp base ->
  In r1 base -> In r2 base -> cmp r1 = 0 -> cmp r2 = 0 -> r1 = r2.
Proof.
  intros O H1 H2 E1 E2. apply In_nth_error in H1, H2. destruct H1 as [i Hi], H2 as [j Hj].
  destruct (Nat.lt_trichotomy i j) as [L|[->|L]].
  - specialize (O i j r1 r2 L Hi Hj). lia.
  - congruence.
  - specialize (O j i r2 r1 L Hj Hi). lia.
Qed.
(** The row found is the one a linear scan finds. *)
Lemma bsearch_find {R} (cmp : R -> Z) base : ordered cmp base ->
  bsearch cmp base = Ok (find (fun r => cmp r =? 0) base).
Proof.
  intros O. destruct (bsearch_correct cmp base O) as [(r & -> & I & E)|(-> & N)].
  - destruct (find (fun r => cmp r =? 0) base) as [r'|] eqn:F.
    + apply find_some in F. destruct F as [F1 F2]. apply Z.eqb_eq in F2.
      rewrite (ordered_unique cmp base r r' O); auto.
    + pose proof (find_none _ _ F r I) as Q. cbn in Q. lia.
  - destruct (find (fun r => cmp r =? 0) base) as [r'|] eqn:F; [|reflexivity].
    apply find_some in F. destruct F as [F1 F2]. exfalso. apply (N r' F1). lia.
Qed.

(** Sortedness, checked by computation on adjacent rows. *)
Fixpoint adjacent {R} (lt : R -> R -> bool) (l : list R) : bool :=
  match l with
  | x :: (y :: _) as t => lt x y && adjacent lt t
  | _ => true
  end.
Lemma adjacent_sorted {R} (lt : R -> R -> bool) l :
  (forall x y z, lt x y = true -> lt y z = true -> lt x z = true) ->
  adjacent lt l = true -> StronglySorted (fun x y => lt x y = true) l.
Proof.
  intros T H. apply Sorted_StronglySorted; [exact T|].
  induction l as [|x [|y t] IH]; [constructor|constructor; constructor|].
  cbn [adjacent] in H. apply andb_prop in H. destruct H as [H1 H2].
  constructor; [apply IH; exact H2|constructor; exact H1].
Qed.
Lemma sorted_nth {R} (P : R -> R -> Prop) l : StronglySorted P l ->
  forall i j r1 r2, (i < j)%nat -> nth_error l i = Some r1 -> nth_error l j = Some r2 -> P r1 r2.
Proof.
  induction 1 as [|x l S IH F]; intros i j r1 r2 L Hi Hj; [destruct i; discriminate|].
  destruct j as [|j]; [lia|]. cbn in Hj. destruct i as [|i].
  - cbn in Hi. injection Hi as <-. rewrite Forall_forall in F. apply F. eapply nth_error_In; eassumption.
  - cbn in Hi. eapply IH; [|eassumption|eassumption]; lia.
Qed.

Definition row_lt (a b : list Z) : bool := row_at a 0 <? row_at b 0.
Definition pair_lt (a b : list Z) : bool :=
  (row_at a 0 <? row_at b 0) || ((row_at a 0 =? row_at b 0) && (row_at a 1 <? row_at b 1)).
Definition range_lt (a b : Z * Z * gcb) : bool :=
  let '(_, e1, _) := a in let '(s2, e2, _) := b in (e1 <? s2) && (s2 <=? e2).

Ltac zbool := repeat match goal with
  | H : (_ && _)%bool = true |- _ => apply andb_prop in H; destruct H
  | H : (_ || _)%bool = true |- _ => apply orb_prop in H; destruct H
  | H : (_ =? _) = true |- _ => apply Z.eqb_eq in H
  | H : (_ <? _) = true |- _ => apply Z.ltb_lt in H
  | H : (_ <=? _) = true |- _ => apply Z.leb_le in H
  end.

Lemma ordered_rows data key : adjacent row_lt data = true -> ordered (compare_value_to_row key) data.
Proof.
  intros H i j r1 r2 L Hi Hj. apply adjacent_sorted in H.
  2:{ unfold row_lt. intros x y z A B. zbool. apply Z.ltb_lt. lia. }
  pose proof (sorted_nth _ _ H i j r1 r2 L Hi Hj) as P. unfold row_lt in P. cbv beta in P. zbool.
  unfold compare_value_to_row.
  destruct (Z.ltb_spec key (row_at r1 0)); destruct (Z.gtb_spec key (row_at r1 0));
  destruct (Z.ltb_spec key (row_at r2 0)); destruct (Z.gtb_spec key (row_at r2 0)); lia.
Qed.
Lemma ordered_pairs data a b : adjacent pair_lt data = true -> ordered (compare_pair_to_row a b) data.
Proof.
  intros H i j r1 r2 L Hi Hj. apply adjacent_sorted in H.
  2:{ unfold pair_lt. intros x y z A B. apply orb_true_iff. zbool; try (left; apply Z.ltb_lt; lia).
      right. apply andb_true_intro. split; [apply Z.eqb_eq|apply Z.ltb_lt]; lia. }
  pose proof (sorted_nth _ _ H i j r1 r2 L Hi Hj) as P. unfold pair_lt in P. cbv beta in P.
  unfold compare_pair_to_row.
  destruct (Z.ltb_spec a (row_at r1 0)); destruct (Z.gtb_spec a (row_at r1 0));
  destruct (Z.ltb_spec a (row_at r2 0)); destruct (Z.gtb_spec a (row_at r2 0));
  destruct (Z.ltb_spec b (row_at r1 1)); destruct (Z.gtb_spec b (row_at r1 1));
  destruct (Z.ltb_spec b (row_at r2 1)); destruct (Z.gtb_spec b (row_at r2 1)); zbool; lia.
Qed.
Lemma ordered_ranges data c : (forall lo hi v, In (lo, hi, v) data -> lo <= hi) ->
  adjacent range_lt data = true -> ordered (compare_value_to_range c) data.
Proof.
  intros W H i j [[s1 e1] v1] [[s2 e2] v2] L Hi Hj.
  assert (W2 := W _ _ _ (nth_error_In _ _ Hj)). assert (W1 := W _ _ _ (nth_error_In _ _ Hi)).
  apply adjacent_sorted in H.
  2:{ unfold range_lt. intros [[x1 x2] x3] [[y1 y2] y3] [[z1 z2] z3] A B. zbool.
      apply andb_true_intro. split; [apply Z.ltb_lt|apply Z.leb_le]; lia. }
  pose proof (sorted_nth _ _ H i j _ _ L Hi Hj) as P. unfold range_lt in P. cbv beta in P. zbool.
  unfold compare_value_to_range.
  destruct (Z.ltb_spec c s1); destruct (Z.geb_spec c s1); destruct (Z.leb_spec c e1);
  destruct (Z.ltb_spec c s2); destruct (Z.geb_spec c s2); destruct (Z.leb_spec c e2); cbn; lia.
Qed.

(** ** Combining class *)
Lemma ccc_data_sorted : adjacent row_lt canonical_combining_class_data = true.
Proof. vm_compute. reflexivity. Qed.
Lemma ccc_data_ucd : map (fun p => [fst p; snd p]) ucd_ccc = canonical_combining_class_data.
Proof. vm_compute. reflexivity. Qed.

Definition ccc (c : Z) : Z :=
  match find (fun p => fst p =? c) ucd_ccc with Some p => snd p | None => 0 end.

Lemma find_map {A B} (f : A -> B) p l : find p (map f l) = option_map f (find (fun x => p (f x)) l).
Proof. induction l as [|x l IH]; [reflexivity|]. cbn. destruct (p (f x)); [reflexivity|apply IH]. Qed.
Lemma find_ext {A} (p q : A -> bool) l : (forall x, In x l -> p x = q x) -> find p l = find q l.
Proof.
  induction l as [|x l IH]; [reflexivity|]. intros H. cbn. rewrite (H x) by (left; reflexivity).
  destruct (q x); [reflexivity|]. apply IH. intros. apply H. right. assumption.
Qed.
Lemma compare_value_eq key r : (compare_value_to_row key r =? 0) = (row_at r 0 =? key).
Proof.
  unfold compare_value_to_row. destruct (Z.ltb_spec key (row_at r 0)).
  - symmetry. apply Z.eqb_neq. lia.
  - destruct (Z.gtb_spec key (row_at r 0)); symmetry; [apply Z.eqb_neq|apply Z.eqb_eq]; lia.
Qed.
Lemma ccc_resolve c : canonical_combining_class_resolve c = Ok (ccc c).
Proof.
  unfold canonical_combining_class_resolve, class_resolve_in. rewrite bsearch_find by (apply ordered_rows, ccc_data_sorted).
  cbn [bind]. rewrite (find_ext _ (fun r => row_at r 0 =? c)) by (intros; apply compare_value_eq).
  rewrite <- ccc_data_ucd, find_map. unfold ccc.
  change (find (fun x => row_at [fst x; snd x] 0 =? c) ucd_ccc) with (find (fun p => fst p =? c) ucd_ccc).
  destruct (find (fun p => fst p =? c) ucd_ccc) as [[a k]|]; reflexivity.
Qed.
Lemma ucd_ccc_nodup c k k' : In (c, k) ucd_ccc -> In (c, k') ucd_ccc -> k = k'.
Proof.
  intros H1 H2.
  assert (S := ordered_rows _ c ccc_data_sorted).
  assert (forall p, In p ucd_ccc -> In [fst p; snd p] canonical_combining_class_data).
  { intros p Hp. rewrite <- ccc_data_ucd. apply (in_map (fun p => [fst p; snd p])). assumption. }
  assert (E : [c; k] = [c; k']).
  { apply (ordered_unique _ _ _ _ S); [apply (H (c,k)); assumption|apply (H (c,k')); assumption| |];
    unfold compare_value_to_row; cbn; rewrite Z.ltb_irrefl; rewrite Z.gtb_ltb, Z.ltb_irrefl; reflexivity. }
  congruence.
Qed.
Lemma ccc_spec c k : ccc c = k <-> has_ccc c k.
Proof.
  unfold ccc, has_ccc. destruct (find (fun p => fst p =? c) ucd_ccc) as [[a m]|] eqn:F.
  - apply find_some in F. cbn in F. destruct F as [I E]. apply Z.eqb_eq in E. subst a. cbn. split.
    + intros ->. left. assumption.
    + intros [H|[H _]]; [eapply ucd_ccc_nodup; eassumption|exfalso; eapply H; eassumption].
  - assert (N : forall k', ~ In (c, k') ucd_ccc).
    { intros k' H. pose proof (find_none _ _ F _ H) as Q. cbn in Q. lia. }
    split; [intros <-; right; split; auto|]. intros [H|[_ H]]; [exfalso; eapply N; eassumption|auto].
Qed.
Lemma ccc_resolve_spec c k : canonical_combining_class_resolve c = Ok k <-> has_ccc c k.
Proof.
  rewrite ccc_resolve, <- ccc_spec. split; [intros H; injection H; auto|intros ->; reflexivity].
Qed.
Lemma has_ccc_total c : has_ccc c (ccc c).
Proof. apply ccc_spec. reflexivity. Qed.

(** ** Grapheme_Cluster_Break *)
Lemma gcb_eqb_eq a b : gcb_eqb a b = true <-> a = b.
Proof. destruct a, b; cbn; split; intros H; try reflexivity; discriminate. Qed.
Definition range_eqb (a b : Z * Z * gcb) : bool :=
  let '(s1, e1, v1) := a in let '(s2, e2, v2) := b in (s1 =? s2) && (e1 =? e2) && gcb_eqb v1 v2.
Lemma range_eqb_eq a b : range_eqb a b = true -> a = b.
Proof.
  destruct a as [[s1 e1] v1], b as [[s2 e2] v2]. unfold range_eqb. intros H. zbool.
  apply gcb_eqb_eq in H0. congruence.
Qed.
Definition included {A} (eqb : A -> A -> bool) (l m : list A) : bool :=
  forallb (fun x => existsb (eqb x) m) l.
Lemma included_incl {A} eqb (l m : list A) : (forall x y, eqb x y = true -> x = y) ->
  included eqb l m = true -> incl l m.
Proof.
  intros E H x Hx. unfold included in H. rewrite forallb_forall in H. specialize (H x Hx).
  apply existsb_exists in H. destruct H as (y & Hy & Q). apply E in Q. congruence.
Qed.
Lemma gcb_data_sorted : adjacent range_lt grapheme_cluster_break_data = true.
Proof. vm_compute. reflexivity. Qed.
Lemma gcb_data_wf lo hi v : In (lo, hi, v) grapheme_cluster_break_data -> lo <= hi.
Proof.
  assert (H : forallb (fun r => let '(lo, hi, _) := r in lo <=? hi) grapheme_cluster_break_data = true)
    by (vm_compute; reflexivity).
  rewrite forallb_forall in H. intros I. specialize (H _ I). cbn in H. lia.
Qed.
Lemma gcb_data_ucd r : In r grapheme_cluster_break_data <-> In r ucd_grapheme_break.
Proof.
  split; apply (included_incl range_eqb); try exact range_eqb_eq; vm_compute; reflexivity.
Qed.
Definition gcb_of (c : Z) : gcb :=
  match find (fun r => compare_value_to_range c r =? 0) grapheme_cluster_break_data with
  | Some (_, _, v) => v | None => G_OTHER end.
Lemma gcb_resolve c : grapheme_cluster_break_resolve c = Ok (gcb_of c).
Proof.
  unfold grapheme_cluster_break_resolve, break_resolve_in.
  rewrite bsearch_find by (apply ordered_ranges; [exact gcb_data_wf|exact gcb_data_sorted]).
  cbn [bind]. unfold gcb_of.
  destruct (find (fun r => compare_value_to_range c r =? 0) grapheme_cluster_break_data) as [[[? ?] ?]|]; reflexivity.
Qed.
Lemma compare_range_zero c lo hi v : (compare_value_to_range c (lo, hi, v) = 0) <-> lo <= c <= hi.
Proof.
  unfold compare_value_to_range. destruct (Z.ltb_spec c lo); [lia|].
  destruct (Z.geb_spec c lo); destruct (Z.leb_spec c hi); cbn; lia.
Qed.
Lemma gcb_spec c v : gcb_of c = v <-> has_gcb c v.
Proof.
  unfold gcb_of, has_gcb.
  assert (O := ordered_ranges _ c gcb_data_wf gcb_data_sorted).
  destruct (find (fun r => compare_value_to_range c r =? 0) grapheme_cluster_break_data) as [[[lo hi] v']|] eqn:F.
  - apply find_some in F. destruct F as [I E]. apply Z.eqb_eq in E. split.
    + intros <-. left. exists lo, hi. split; [apply gcb_data_ucd; assumption|]. apply compare_range_zero in E. assumption.
    + intros [(lo' & hi' & I' & W)|[H _]].
      * apply gcb_data_ucd in I'. apply (compare_range_zero c lo' hi' v) in W.
        pose proof (ordered_unique _ _ _ _ O I I' E W). congruence.
      * apply gcb_data_ucd in I. apply compare_range_zero in E. exfalso. eapply H; eassumption.
  - assert (N : forall lo hi v', In (lo, hi, v') ucd_grapheme_break -> ~ lo <= c <= hi).
    { intros lo hi v' H W. apply gcb_data_ucd in H. apply (compare_range_zero c lo hi v') in W.
      pose proof (find_none _ _ F _ H) as Q. cbv beta in Q. rewrite W in Q. discriminate. }
    split; [intros <-; right; auto|]. intros [(lo & hi & I & W)|[_ H]]; [|auto].
    exfalso. eapply N; eassumption.
Qed.
Lemma gcb_resolve_spec c v : grapheme_cluster_break_resolve c = Ok v <-> has_gcb c v.
Proof.
  rewrite gcb_resolve, <- gcb_spec. split; [intros H; injection H; auto|intros ->; reflexivity].
Qed.
