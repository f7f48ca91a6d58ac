(** * Proofs: std::sort makes O(n log n) comparisons *)
From Verif Require Import Prelude DataTables PropsModel StdSortModel StdSortProofs CostModel CostProofs SortCostModel.
Require Import ZifyBool ZifyNat.

Section Erase.
Variable comp : Z -> Z -> res bool.
Variable comp_c : Z -> Z -> counted bool.
Hypothesis comp_erase : forall a b, erase (comp_c a b) = comp a b.
Ltac er := cbv zeta; repeat (first
  [ reflexivity
  | match goal with
    | |- erase (cbind _ _) = _ => rewrite erase_bind; apply bind_ext; [|intros ?; cbv zeta]
    | |- erase (comp_c _ _) = _ => apply comp_erase
    | |- erase (free _) = _ => apply erase_free
    | x : (_ * _)%type |- _ => destruct x
    | |- erase (if ?b then _ else _) = _ => destruct b
    end ]); eauto.

Lemma erase_comp_at m p q : erase (comp_at_c comp_c m p q) = comp_at comp m p q.
Proof. unfold comp_at_c, comp_at. er. Qed.
Local Hint Resolve erase_comp_at : core.
Lemma erase_median m r a b c : erase (move_median_to_first_c comp_c m r a b c) = move_median_to_first comp m r a b c.
Proof. unfold move_median_to_first_c, move_median_to_first. er. Qed.
Lemma erase_linear_loop fuel : forall m v l n, erase (linear_insert_loop_c comp_c fuel m v l n) = linear_insert_loop comp fuel m v l n.
Proof. induction fuel as [|f IH]; intros; cbn [linear_insert_loop_c linear_insert_loop]; er. Qed.
Local Hint Resolve erase_median erase_linear_loop : core.
Lemma erase_linear m l : erase (unguarded_linear_insert_c comp_c m l) = unguarded_linear_insert comp m l.
Proof. unfold unguarded_linear_insert_c, unguarded_linear_insert. er. Qed.
Local Hint Resolve erase_linear : core.
Lemma erase_insertion_loop first last fuel : forall m i, erase (insertion_loop_c comp_c fuel m first last i) = insertion_loop comp fuel m first last i.
Proof. induction fuel as [|f IH]; intros; cbn [insertion_loop_c insertion_loop]; er. Qed.
Local Hint Resolve erase_insertion_loop : core.
Lemma erase_insertion m f l : erase (insertion_sort_c comp_c m f l) = insertion_sort comp m f l.
Proof. unfold insertion_sort_c, insertion_sort. er. Qed.
Lemma erase_unguarded_insertion last fuel : forall m i, erase (unguarded_insertion_sort_c comp_c fuel m i last) = unguarded_insertion_sort comp fuel m i last.
Proof. induction fuel as [|f IH]; intros; cbn [unguarded_insertion_sort_c unguarded_insertion_sort]; er. Qed.
Local Hint Resolve erase_insertion erase_unguarded_insertion : core.
Lemma erase_final m f l : erase (final_insertion_sort_c comp_c m f l) = final_insertion_sort comp m f l.
Proof. unfold final_insertion_sort_c, final_insertion_sort. er. Qed.
Lemma erase_scan_right m p fuel : forall f, erase (scan_right_c comp_c fuel m f p) = scan_right comp fuel m f p.
Proof. induction fuel as [|n IH]; intros; cbn [scan_right_c scan_right]; er. Qed.
Lemma erase_scan_left m p fuel : forall f, erase (scan_left_c comp_c fuel m f p) = scan_left comp fuel m f p.
Proof. induction fuel as [|n IH]; intros; cbn [scan_left_c scan_left]; er. Qed.
Local Hint Resolve erase_final erase_scan_right erase_scan_left : core.
Lemma erase_partition p fuel : forall m f l, erase (unguarded_partition_c comp_c fuel m f l p) = unguarded_partition comp fuel m f l p.
Proof. induction fuel as [|n IH]; intros; cbn [unguarded_partition_c unguarded_partition]; er. Qed.
Local Hint Resolve erase_partition : core.
Lemma erase_pivot m f l : erase (unguarded_partition_pivot_c comp_c m f l) = unguarded_partition_pivot comp m f l.
Proof. unfold unguarded_partition_pivot_c, unguarded_partition_pivot. er. Qed.
Lemma erase_push first top v fuel : forall m h, erase (push_heap_c comp_c fuel m first h top v) = push_heap comp fuel m first h top v.
Proof. induction fuel as [|n IH]; intros; cbn [push_heap_c push_heap]; er. Qed.
Lemma erase_adjust_loop first len fuel : forall m h s, erase (adjust_loop_c comp_c fuel m first h len s) = adjust_loop comp fuel m first h len s.
Proof. induction fuel as [|n IH]; intros; cbn [adjust_loop_c adjust_loop]; er. Qed.
Local Hint Resolve erase_pivot erase_push erase_adjust_loop : core.
Lemma erase_adjust m first h len v : erase (adjust_heap_c comp_c m first h len v) = adjust_heap comp m first h len v.
Proof. unfold adjust_heap_c, adjust_heap. er. Qed.
Local Hint Resolve erase_adjust : core.
Lemma erase_pop m f l r : erase (pop_heap_c comp_c m f l r) = pop_heap comp m f l r.
Proof. unfold pop_heap_c, pop_heap. er. Qed.
Lemma erase_make_loop first len fuel : forall m p, erase (make_heap_loop_c comp_c fuel m first len p) = make_heap_loop comp fuel m first len p.
Proof. induction fuel as [|n IH]; intros; cbn [make_heap_loop_c make_heap_loop]; er. Qed.
Local Hint Resolve erase_pop erase_make_loop : core.
Lemma erase_make m f l : erase (make_heap_c comp_c m f l) = make_heap comp m f l.
Proof. unfold make_heap_c, make_heap. er. Qed.
Lemma erase_sort_heap first fuel : forall m l, erase (sort_heap_c comp_c fuel m first l) = sort_heap comp fuel m first l.
Proof. induction fuel as [|n IH]; intros; cbn [sort_heap_c sort_heap]; er. Qed.
Local Hint Resolve erase_make erase_sort_heap : core.
Lemma erase_partial m f l : erase (partial_sort_c comp_c m f l) = partial_sort comp m f l.
Proof. unfold partial_sort_c, partial_sort. er. Qed.
Local Hint Resolve erase_partial : core.
Lemma erase_intro d : forall m f l, erase (introsort_loop_c comp_c d m f l) = introsort_loop comp d m f l.
Proof. induction d as [|d IH]; intros; cbn [introsort_loop_c introsort_loop]; er. Qed.
Local Hint Resolve erase_intro : core.
Theorem erase_sort m f l : erase (std_sort_c comp_c m f l) = std_sort comp m f l.
Proof. unfold std_sort_c, std_sort. er. Qed.
End Erase.

(** ** A comparison that costs [w] times as much *)
Definition scale {A} (w : nat) (m : counted A) : counted A := match m with Ok (a, n) => Ok (a, (w * n)%nat) | UB u => UB u | OutOfFuel => OutOfFuel end.
Lemma scale_bind {A B} w (m : counted A) (f : A -> counted B) : scale w (cbind m f) = cbind (scale w m) (fun a => scale w (f a)).
Proof. destruct m as [[a n]|u|]; [|reflexivity..]. cbn [cbind scale]. destruct (f a) as [[b n']|u|]; cbn [scale]; [|reflexivity..]. do 2 f_equal. lia. Qed.
Lemma scale_free {A} w (m : res A) : scale w (free m) = free m.
Proof. destruct m; cbn [free scale]; [|reflexivity..]. do 2 f_equal. lia. Qed.
Lemma scale_cret {A} w (a : A) : scale w (cret a) = cret a.
Proof. unfold scale, cret. do 2 f_equal. lia. Qed.
Lemma cbind_ext {A B} (m m' : counted A) (f g : A -> counted B) : m = m' -> (forall a, f a = g a) -> cbind m f = cbind m' g.
Proof. intros -> E. destruct m' as [[a n]|u|]; cbn [cbind]; [rewrite E|..]; reflexivity. Qed.
Section Scale.
Variable w : nat.
Variable comp1 : Z -> Z -> counted bool.
Variable comp_w : Z -> Z -> counted bool.
Hypothesis comp_scale : forall a b, scale w (comp1 a b) = comp_w a b.
Ltac er := cbv zeta; repeat (first
  [ reflexivity
  | match goal with
    | |- scale w (cbind _ _) = _ => rewrite scale_bind; apply cbind_ext; [|intros ?; cbv zeta]
    | |- scale w (comp1 _ _) = _ => apply comp_scale
    | |- scale w (free _) = _ => apply scale_free
    | |- scale w (cret _) = _ => apply scale_cret
    | x : (_ * _)%type |- _ => destruct x
    | |- scale w (if ?b then _ else _) = _ => destruct b
    end ]); eauto.

Lemma scale_comp_at m p q : scale w (comp_at_c comp1 m p q) = comp_at_c comp_w m p q.
Proof. unfold comp_at_c. er. Qed.
Local Hint Resolve scale_comp_at : core.
Lemma scale_median m r a b c : scale w (move_median_to_first_c comp1 m r a b c) = move_median_to_first_c comp_w m r a b c.
Proof. unfold move_median_to_first_c. er. Qed.
Lemma scale_linear_loop fuel : forall m v l n, scale w (linear_insert_loop_c comp1 fuel m v l n) = linear_insert_loop_c comp_w fuel m v l n.
Proof. induction fuel as [|f IH]; intros; cbn [linear_insert_loop_c]; er. Qed.
Local Hint Resolve scale_median scale_linear_loop : core.
Lemma scale_linear m l : scale w (unguarded_linear_insert_c comp1 m l) = unguarded_linear_insert_c comp_w m l.
Proof. unfold unguarded_linear_insert_c. er. Qed.
Local Hint Resolve scale_linear : core.
Lemma scale_insertion_loop first last fuel : forall m i, scale w (insertion_loop_c comp1 fuel m first last i) = insertion_loop_c comp_w fuel m first last i.
Proof. induction fuel as [|f IH]; intros; cbn [insertion_loop_c]; er. Qed.
Local Hint Resolve scale_insertion_loop : core.
Lemma scale_insertion m f l : scale w (insertion_sort_c comp1 m f l) = insertion_sort_c comp_w m f l.
Proof. unfold insertion_sort_c. er. Qed.
Lemma scale_unguarded_insertion last fuel : forall m i, scale w (unguarded_insertion_sort_c comp1 fuel m i last) = unguarded_insertion_sort_c comp_w fuel m i last.
Proof. induction fuel as [|f IH]; intros; cbn [unguarded_insertion_sort_c]; er. Qed.
Local Hint Resolve scale_insertion scale_unguarded_insertion : core.
Lemma scale_final m f l : scale w (final_insertion_sort_c comp1 m f l) = final_insertion_sort_c comp_w m f l.
Proof. unfold final_insertion_sort_c. er. Qed.
Lemma scale_scan_right m p fuel : forall f, scale w (scan_right_c comp1 fuel m f p) = scan_right_c comp_w fuel m f p.
Proof. induction fuel as [|n IH]; intros; cbn [scan_right_c]; er. Qed.
Lemma scale_scan_left m p fuel : forall f, scale w (scan_left_c comp1 fuel m f p) = scan_left_c comp_w fuel m f p.
Proof. induction fuel as [|n IH]; intros; cbn [scan_left_c]; er. Qed.
Local Hint Resolve scale_final scale_scan_right scale_scan_left : core.
Lemma scale_partition p fuel : forall m f l, scale w (unguarded_partition_c comp1 fuel m f l p) = unguarded_partition_c comp_w fuel m f l p.
Proof. induction fuel as [|n IH]; intros; cbn [unguarded_partition_c]; er. Qed.
Local Hint Resolve scale_partition : core.
Lemma scale_pivot m f l : scale w (unguarded_partition_pivot_c comp1 m f l) = unguarded_partition_pivot_c comp_w m f l.
Proof. unfold unguarded_partition_pivot_c. er. Qed.
Lemma scale_push first top v fuel : forall m h, scale w (push_heap_c comp1 fuel m first h top v) = push_heap_c comp_w fuel m first h top v.
Proof. induction fuel as [|n IH]; intros; cbn [push_heap_c]; er. Qed.
Lemma scale_adjust_loop first len fuel : forall m h s, scale w (adjust_loop_c comp1 fuel m first h len s) = adjust_loop_c comp_w fuel m first h len s.
Proof. induction fuel as [|n IH]; intros; cbn [adjust_loop_c]; er. Qed.
Local Hint Resolve scale_pivot scale_push scale_adjust_loop : core.
Lemma scale_adjust m first h len v : scale w (adjust_heap_c comp1 m first h len v) = adjust_heap_c comp_w m first h len v.
Proof. unfold adjust_heap_c. er. Qed.
Local Hint Resolve scale_adjust : core.
Lemma scale_pop m f l r : scale w (pop_heap_c comp1 m f l r) = pop_heap_c comp_w m f l r.
Proof. unfold pop_heap_c. er. Qed.
Lemma scale_make_loop first len fuel : forall m p, scale w (make_heap_loop_c comp1 fuel m first len p) = make_heap_loop_c comp_w fuel m first len p.
Proof. induction fuel as [|n IH]; intros; cbn [make_heap_loop_c]; er. Qed.
Local Hint Resolve scale_pop scale_make_loop : core.
Lemma scale_make m f l : scale w (make_heap_c comp1 m f l) = make_heap_c comp_w m f l.
Proof. unfold make_heap_c. er. Qed.
Lemma scale_sort_heap first fuel : forall m l, scale w (sort_heap_c comp1 fuel m first l) = sort_heap_c comp_w fuel m first l.
Proof. induction fuel as [|n IH]; intros; cbn [sort_heap_c]; er. Qed.
Local Hint Resolve scale_make scale_sort_heap : core.
Lemma scale_partial m f l : scale w (partial_sort_c comp1 m f l) = partial_sort_c comp_w m f l.
Proof. unfold partial_sort_c. er. Qed.
Local Hint Resolve scale_partial : core.
Lemma scale_intro d : forall m f l, scale w (introsort_loop_c comp1 d m f l) = introsort_loop_c comp_w d m f l.
Proof. induction d as [|d IH]; intros; cbn [introsort_loop_c]; er. Qed.
Local Hint Resolve scale_intro : core.
Theorem scale_sort m f l : scale w (std_sort_c comp1 m f l) = std_sort_c comp_w m f l.
Proof. unfold std_sort_c. er. Qed.
End Scale.

(** ** Counting *)
Lemma erase_run {A} (m : counted A) a c : m = Ok (a, c) -> erase m = Ok a.
Proof. intros ->. reflexivity. Qed.
Lemma cret_inv {A} (x a : A) c : cret x = Ok (a, c) -> a = x /\ c = 0%nat.
Proof. intros E. injection E as -> <-. auto. Qed.

Tactic Notation "cinv" hyp(H) "as" ident(a) ident(H1) ident(H2) :=
  let c1 := fresh "cost" in let c2 := fresh "cost" in apply cbind_ok in H; destruct H as (a & c1 & c2 & H1 & H2 & ->).

Section Count.
Variable comp : Z -> Z -> res bool.
Variable k : Z -> Z.
Hypothesis comp_k : forall a b, comp a b = Ok (k a <? k b).
Variable comp_c : Z -> Z -> counted bool.
Hypothesis comp_c_k : forall a b, comp_c a b = Ok (k a <? k b, 1%nat).
Lemma comp_erase a b : erase (comp_c a b) = comp a b.
Proof. rewrite comp_k, comp_c_k. reflexivity. Qed.

Lemma comp_at_cost m p q : 0 <= p < zlen m -> 0 <= q < zlen m -> comp_at_c comp_c m p q = Ok (k (get m p) <? k (get m q), 1%nat).
Proof. intros P Q. unfold comp_at_c. rewrite !rd_ok by assumption. cbn [free cbind]. rewrite comp_c_k. reflexivity. Qed.

(** Elements 16 or more places apart are in order. *)
Definition near (lo hi : Z) (m : list Z) : Prop := forall i j, lo <= i -> i + 16 <= j -> j < hi -> k (get m i) <= k (get m j).
Lemma near_bub lo hi m m' : 0 <= lo -> hi <= zlen m -> near lo hi m -> bub k lo hi m m' -> near lo hi m'.
Proof.
  intros L H N B. induction B as [|m' p B IH P Q K]; [assumption|].
  pose proof (shuf_len _ _ _ _ (bub_shuf comp k comp_k _ _ _ _ B)) as ZL. intros i j I J HJ. rewrite !get_swap by lia.
  destruct (Z.eqb_spec i p), (Z.eqb_spec i (p + 1)), (Z.eqb_spec j p), (Z.eqb_spec j (p + 1)); try lia; subst.
  - pose proof (IH p j ltac:(lia) ltac:(lia) ltac:(lia)). lia.
  - apply IH; lia.
  - apply IH; lia.
  - pose proof (IH i (p + 1) ltac:(lia) ltac:(lia) ltac:(lia)). lia.
  - apply IH; lia.
Qed.

Lemma linear_loop_cost s : forall fuel m val last m' c, 0 <= s < last -> last < zlen m -> k (get m s) <= k val ->
  linear_insert_loop_c comp_c fuel m val last (last - 1) = Ok (m', c) -> Z.of_nat c <= last - s.
Proof.
  induction fuel as [|f IH]; intros m val last m' c S L K E; [discriminate|]. cbn [linear_insert_loop_c] in E.
  rewrite rd_ok in E by lia. cbn [free cbind] in E. rewrite comp_c_k in E. cbn [cbind] in E.
  destruct (Z.ltb_spec (k val) (k (get m (last - 1)))) as [C|C].
  - assert (last - 1 <> s) by (intros X; rewrite X in C; lia). rewrite wr_ok in E by lia. cbn [free cbind] in E.
    rewrite padd_ok in E by (rewrite zlen_put; lia). cbn [free cbind] in E. replace (last - 1 + -1) with (last - 1 - 1) in E by lia.
    destruct (linear_insert_loop_c comp_c f (put m last (get m (last - 1))) val (last - 1) (last - 1 - 1)) as [[m2 c2]|u|] eqn:E2; try discriminate.
    injection E as <- <-. apply IH in E2; rewrite ?zlen_put; try lia. rewrite get_put_other by lia. assumption.
  - rewrite wr_ok in E by lia. cbn in E. injection E as <- <-. lia.
Qed.
Lemma linear_cost s m i m' c : 0 <= s < i -> i < zlen m -> k (get m s) <= k (get m i) ->
  unguarded_linear_insert_c comp_c m i = Ok (m', c) -> Z.of_nat c <= i - s.
Proof.
  intros S L K E. unfold unguarded_linear_insert_c in E. rewrite rd_ok in E by lia. cbn [free cbind] in E.
  rewrite padd_ok in E by lia. cbn [free cbind] in E. replace (i + -1) with (i - 1) in E by lia.
  destruct (linear_insert_loop_c comp_c (Datatypes.S (length m)) m (get m i) i (i - 1)) as [[m2 c2]|u|] eqn:E2; try discriminate.
  injection E as <- <-. apply (linear_loop_cost s) in E2; assumption.
Qed.
Lemma insertion_loop_cost first last : last - first <= 16 -> forall fuel m i m' c, 0 <= first < i -> i <= last -> last <= zlen m -> sorted k first i m ->
  insertion_loop_c comp_c fuel m first last i = Ok (m', c) -> Z.of_nat c <= 16 * (last - i).
Proof.
  intros SM. induction fuel as [|f IH]; intros m i m' c F I L SO E; [discriminate|]. cbn [insertion_loop_c] in E.
  destruct (Z.eqb_spec i last) as [EQ|NE]; [apply cret_inv in E; lia|]. rewrite comp_at_cost in E by lia.
  (* the result of one insertion, from the model without counts *)
  destruct (insertion_loop_ok comp k comp_k first (i + 1) 1 2 m i ltac:(lia) F ltac:(lia) ltac:(lia) ltac:(lia) SO) as (m1 & E1 & B1 & S1).
  rewrite <- (erase_insertion_loop comp comp_c comp_erase) in E1. apply erase_ok in E1. destruct E1 as (c1 & E1). cbn [insertion_loop_c] in E1.
  destruct (Z.eqb_spec i (i + 1)); [lia|]. rewrite comp_at_cost in E1 by lia.
  cinv E as r X1 X2. injection X1 as <- <-. cinv X2 as mm X3 X4.
  cinv E1 as r' Y1 Y2. injection Y1 as <- <-. cinv Y2 as mm' Y3 Y4. rewrite X3 in Y3. injection Y3 as <- <-.
  rewrite Z.eqb_refl in Y4. apply cret_inv in Y4. destruct Y4 as [<- ->].
  pose proof (shuf_len _ _ _ _ (bub_shuf comp k comp_k _ _ _ _ B1)) as ZL.
  apply IH in X4; try lia; [|assumption].
  match type of X3 with _ = Ok (_, ?c3) => enough (Z.of_nat c3 <= 15) by lia end.
  destruct (Z.ltb_spec (k (get m i)) (k (get m first))) as [C|C].
  - cinv X3 as v U1 U2. apply free_ok in U1. cinv U2 as m3 U3 U4. apply free_ok in U3. apply free_ok in U4. lia.
  - apply (linear_cost first) in X3; lia.
Qed.
Lemma insertion_cost first last m m' c : last - first <= 16 -> 0 <= first <= last -> last <= zlen m ->
  insertion_sort_c comp_c m first last = Ok (m', c) -> Z.of_nat c <= 16 * (last - first).
Proof.
  intros SM F L E. unfold insertion_sort_c in E. destruct (Z.eqb_spec first last) as [EQ|NE]; [apply cret_inv in E; lia|].
  apply insertion_loop_cost in E; try lia. intros i j I J. lia.
Qed.
Lemma unguarded_insertion_cost first last : forall fuel m i m' c, 0 <= first -> first + 16 <= i -> i <= last -> last <= zlen m -> sorted k first i m ->
  (forall j, first <= j < last -> k (get m first) <= k (get m j)) -> near first last m ->
  unguarded_insertion_sort_c comp_c fuel m i last = Ok (m', c) -> Z.of_nat c <= 16 * (last - i).
Proof.
  induction fuel as [|f IH]; intros m i m' c F I IL L SO MN NR E; [discriminate|]. cbn [unguarded_insertion_sort_c] in E.
  destruct (Z.eqb_spec i last) as [EQ|NE]; [apply cret_inv in E; lia|]. cinv E as mm E0 E1.
  destruct (unguarded_linear_insert_ok comp k comp_k first first i m ltac:(lia) ltac:(lia) ltac:(lia) (MN i ltac:(lia)) SO) as (m1 & E2 & B & S1).
  pose proof (erase_run _ _ _ E0) as E3. rewrite (erase_linear comp comp_c comp_erase), E2 in E3. injection E3 as <-.
  apply (linear_cost (i - 16)) in E0; [|lia|lia|apply NR; lia].
  pose proof (bub_shuf comp k comp_k _ _ _ _ B) as SH. pose proof (shuf_len _ _ _ _ SH) as ZL.
  apply IH in E1; try lia; [assumption| |].
  - assert (LB : forall j, first <= j < last -> k (get m first) <= k (get m1 j)).
    { apply (shuf_all first (i + 1) m m1 (fun v => k (get m first) <= k v) first last ltac:(lia) ltac:(lia) SH); try lia; try assumption. }
    assert (UB : k (get m1 first) <= k (get m first)).
    { destruct (shuf_some first (i + 1) m m1 (fun v => v = get m first) first (i + 1) ltac:(lia) ltac:(lia) SH) as (x & X & EX); try lia.
      { exists first. split; [lia|reflexivity]. }
      rewrite <- EX. destruct (Z.eq_dec x first) as [->|NX]; [lia|]. apply S1; lia. }
    intros j J. specialize (LB j J). lia.
  - eapply near_bub; [lia| |exact NR|eapply (bub_wide comp k comp_k); [| |exact B]; lia]. lia.
Qed.
Lemma final_cost first last m m' c : 0 <= first <= last -> last <= zlen m -> (first < last -> min_early k first last m) -> near first last m ->
  final_insertion_sort_c comp_c m first last = Ok (m', c) -> Z.of_nat c <= 16 * (last - first).
Proof.
  intros FL LZ ME NR E. unfold final_insertion_sort_c, threshold in E. destruct (Z.gtb_spec (last - first) 16) as [G|G]; [|eapply insertion_cost; eassumption].
  cinv E as mm E0 E1. destruct (insertion_sort_ok comp k comp_k first (first + 16) m) as (m1 & E2 & B & SS); try lia.
  pose proof (erase_run _ _ _ E0) as E3. rewrite (erase_insertion comp comp_c comp_erase), E2 in E3. injection E3 as <-.
  pose proof (bub_shuf comp k comp_k _ _ _ _ B) as SH. pose proof (shuf_len _ _ _ _ SH) as L.
  destruct (ME ltac:(lia)) as (p & P1 & P2 & P3).
  assert (LB : forall j, first <= j < last -> k (get m p) <= k (get m1 j)).
  { apply (shuf_all first (first + 16) m m1 (fun v => k (get m p) <= k v) first last ltac:(lia) ltac:(lia) SH); lia || assumption. }
  assert (UB : k (get m1 first) <= k (get m p)).
  { destruct (shuf_some first (first + 16) m m1 (fun v => v = get m p) first (first + 16) ltac:(lia) ltac:(lia) SH) as (x & X & EX); try lia.
    { exists p. split; [lia|reflexivity]. }
    rewrite <- EX. destruct (Z.eq_dec x first) as [->|NE]; [lia|]. apply SS; lia. }
  apply insertion_cost in E0; try lia.
  assert (MN : forall j, first <= j < last -> k (get m1 first) <= k (get m1 j)) by (intros j J; specialize (LB j J); lia).
  assert (N1 : near first last m1) by (apply (near_bub first last m); [lia..|exact NR|eapply (bub_wide comp k comp_k); [| |exact B]; lia]).
  apply (unguarded_insertion_cost first last) in E1; try lia; assumption.
Qed.

(** ** Partition *)
Lemma comp_at_inv m p q b c : comp_at_c comp_c m p q = Ok (b, c) -> c = 1%nat.
Proof. unfold comp_at_c. intros E. cinv E as x E1 E2. apply free_ok in E1. cinv E2 as y E3 E4. apply free_ok in E3. rewrite comp_c_k in E4. injection E4 as _ <-. lia. Qed.
Lemma padd_inv m p d q : padd m p d = Ok q -> q = p + d.
Proof. unfold padd. destruct ((0 <=? p + d) && (p + d <=? zlen m)); intros E; [|discriminate]. injection E as <-. reflexivity. Qed.
Lemma median_cost m r a b c m' n : move_median_to_first_c comp_c m r a b c = Ok (m', n) -> (n <= 3)%nat.
Proof.
  intros E. unfold move_median_to_first_c in E. cinv E as x E1 E2. apply comp_at_inv in E1. subst.
  assert (F : forall p m2 n2, free (iter_swap m r p) = Ok (m2, n2) -> n2 = 0%nat) by (intros p m2 n2 H; apply free_ok in H; apply H).
  destruct x; cinv E2 as y E3 E4; apply comp_at_inv in E3; subst; destruct y; try (apply F in E4; lia);
    cinv E4 as z E5 E6; apply comp_at_inv in E5; subst; destruct z; apply F in E6; lia.
Qed.
Lemma scan_right_cost m p : forall fuel f f' c, scan_right_c comp_c fuel m f p = Ok (f', c) -> Z.of_nat c = f' - f + 1.
Proof.
  induction fuel as [|n IH]; intros f f' c E; [discriminate|]. cbn [scan_right_c] in E. cinv E as b E1 E2. apply comp_at_inv in E1. subst.
  destruct b.
  - cinv E2 as g E3 E4. apply free_ok in E3. destruct E3 as [E3 ->]. apply padd_inv in E3. apply IH in E4. lia.
  - apply cret_inv in E2. lia.
Qed.
Lemma scan_left_cost m p : forall fuel f f' c, scan_left_c comp_c fuel m f p = Ok (f', c) -> Z.of_nat c = f - f' + 1.
Proof.
  induction fuel as [|n IH]; intros f f' c E; [discriminate|]. cbn [scan_left_c] in E. cinv E as b E1 E2. apply comp_at_inv in E1. subst.
  destruct b.
  - cinv E2 as g E3 E4. apply free_ok in E3. destruct E3 as [E3 ->]. apply padd_inv in E3. apply IH in E4. lia.
  - apply cret_inv in E2. lia.
Qed.
Lemma partition_cost lo hi : 0 <= lo -> forall fuel m first last r c,
  lo < first -> first <= last -> last <= hi -> hi <= zlen m ->
  (forall j, lo < j < first -> k (get m j) <= k (get m lo)) ->
  (forall j, last <= j < hi -> k (get m lo) <= k (get m j)) ->
  (exists q, first <= q < hi /\ k (get m lo) <= k (get m q)) ->
  unguarded_partition_c comp_c fuel m first last lo = Ok (r, c) -> Z.of_nat c <= last - first + 2.
Proof.
  intros L0. induction fuel as [|fuel IH]; intros m first last r c LF FL LH HZ LE GE (q & Q1 & Q2) X; [discriminate|].
  cbn [unguarded_partition_c] in X. assert (ZL : zlen m = Z.of_nat (length m)) by reflexivity.
  destruct (scan_right_ok comp k comp_k m lo q ltac:(lia) ltac:(lia) Q2 _ (Datatypes.S (length m)) first eq_refl) as (f & E & F1 & F2 & F3); try lia.
  cinv X as f0 X1 X2. pose proof (erase_run _ _ _ X1) as Y. rewrite (erase_scan_right comp comp_c comp_erase), E in Y. injection Y as <-. apply scan_right_cost in X1.
  rewrite padd_ok in X2 by lia. cinv X2 as l0 X3 X4. injection X3 as <- <-. replace (last + -1) with (last - 1) in X4 by lia.
  destruct (scan_left_ok comp k comp_k m lo L0 _ (Datatypes.S (length m)) (last - 1) eq_refl) as (l & E' & G1 & G2 & G3); try lia.
  cinv X4 as l1 X5 X6. pose proof (erase_run _ _ _ X5) as Y. rewrite (erase_scan_left comp comp_c comp_erase), E' in Y. injection Y as <-. apply scan_left_cost in X5.
  destruct (Z.ltb_spec f l) as [C|C]; cbn [negb] in X6.
  - rewrite iter_swap_ok in X6 by lia. cinv X6 as m1 X7 X8. injection X7 as <- <-.
    assert (GL : get (swap m f l) lo = get m lo).
    { rewrite get_swap by lia. destruct (Z.eqb_spec lo l), (Z.eqb_spec lo f); lia || reflexivity. }
    apply IH in X8; rewrite ?zlen_swap, ?GL in *; try lia.
    + intros j J. rewrite get_swap by lia. destruct (Z.eqb_spec j l); [lia|]. destruct (Z.eqb_spec j f); [assumption|].
      destruct (Z_lt_ge_dec j first) as [?|?]; [apply LE; lia|]. specialize (F3 j). lia.
    + intros j J. rewrite get_swap by lia. destruct (Z.eqb_spec j l); [assumption|]. destruct (Z.eqb_spec j f); [lia|].
      destruct (Z_lt_ge_dec j last) as [?|?]; [specialize (G3 j); lia|]. apply GE. lia.
    + exists l. split; [lia|]. rewrite get_swap by lia. rewrite Z.eqb_refl. assumption.
  - apply cret_inv in X6. destruct X6 as [_ ->].
    enough (f - l <= 1) by lia. destruct (Z_le_gt_dec (f - l) 1) as [?|FAR]; [assumption|exfalso].
    destruct (Z.eq_dec f first) as [->|NF].
    + specialize (G3 (first - 1) ltac:(lia)). destruct (Z.eq_dec (first - 1) lo) as [Q|Q]; [rewrite Q in G3; lia|]. specialize (LE (first - 1)). lia.
    + assert (f <= last). { destruct (Z_le_gt_dec f last); [assumption|]. specialize (F3 last ltac:(lia)). specialize (GE last). lia. }
      specialize (F3 (f - 1) ltac:(lia)). specialize (G3 (f - 1) ltac:(lia)). lia.
Qed.
Lemma pivot_cost first last m r c : 0 <= first -> first + 3 < last -> last <= zlen m ->
  unguarded_partition_pivot_c comp_c m first last = Ok (r, c) -> Z.of_nat c <= last - first + 4.
Proof.
  intros F FL LZ X. unfold unguarded_partition_pivot_c in X.
  pose proof (Z.div_mod (last - first) 2 ltac:(lia)). pose proof (Z.mod_pos_bound (last - first) 2 ltac:(lia)).
  destruct (move_median_ok comp k comp_k m first (first + 1) (first + (last - first) / 2) (last - 1)) as (m1 & x & E & E1 & XX & q & Q1 & Q2); try lia.
  cinv X as m0 X1 X2. pose proof (erase_run _ _ _ X1) as Y. rewrite (erase_median comp comp_c comp_erase), E in Y. injection Y as <-. apply median_cost in X1.
  assert (L1 : zlen m1 = zlen m) by (rewrite E1; apply zlen_swap).
  apply (partition_cost first last) in X2; try lia. exists q. split; [lia|assumption].
Qed.

(** ** Heap *)
Lemma log2_half p h : 0 <= p -> 2 * (p + 1) <= h + 1 -> Z.log2 (p + 1) + 1 <= Z.log2 (h + 1).
Proof. intros P H. pose proof (Z.log2_double (p + 1) ltac:(lia)). pose proof (Z.log2_le_mono (2 * (p + 1)) (h + 1) H). lia. Qed.
Lemma push_cost first top value : 0 <= top -> forall fuel m hole m' c, 0 <= hole ->
  push_heap_c comp_c fuel m first hole top value = Ok (m', c) -> Z.of_nat c <= Z.log2 (hole + 1).
Proof.
  intros T. induction fuel as [|f IH]; intros m hole m' c H E; [discriminate|]. cbn [push_heap_c] in E.
  pose proof (Z.log2_nonneg (hole + 1)).
  destruct (Z.gtb_spec hole top) as [G|G]; [|apply free_ok in E; lia].
  cinv E as x E1 E2. apply free_ok in E1. cinv E2 as b E3 E4. rewrite comp_c_k in E3. injection E3 as _ <-.
  rewrite Z.quot_div_nonneg in * by lia. pose proof (Z.div_mod (hole - 1) 2 ltac:(lia)). pose proof (Z.mod_pos_bound (hole - 1) 2 ltac:(lia)).
  pose proof (log2_half ((hole - 1) / 2) hole ltac:(lia) ltac:(lia)). pose proof (Z.log2_nonneg ((hole - 1) / 2 + 1)).
  destruct b.
  - cinv E4 as m1 E5 E6. apply free_ok in E5. apply IH in E6; lia.
  - apply free_ok in E4. lia.
Qed.
Lemma adjust_loop_cost first len : forall fuel m hole m' h s c, 0 <= hole < len ->
  adjust_loop_c comp_c fuel m first hole len hole = Ok (m', h, s, c) ->
  s = h /\ hole <= h < len /\ Z.of_nat c + Z.log2 (hole + 1) <= Z.log2 (h + 1).
Proof.
  induction fuel as [|f IH]; intros m hole m' h s c H E; [discriminate|]. cbn [adjust_loop_c] in E.
  rewrite Z.quot_div_nonneg in E by lia. pose proof (Z.div_mod (len - 1) 2 ltac:(lia)). pose proof (Z.mod_pos_bound (len - 1) 2 ltac:(lia)).
  destruct (Z.ltb_spec hole ((len - 1) / 2)) as [C|C].
  - cbv zeta in E. cinv E as b E1 E2. apply comp_at_inv in E1. subst. cinv E2 as x E3 E4. apply free_ok in E3. cinv E4 as m1 E5 E6. apply free_ok in E5.
    set (second := if b then 2 * (hole + 1) - 1 else 2 * (hole + 1)) in *.
    assert (SEC : 2 * hole + 1 <= second <= 2 * hole + 2) by (subst second; destruct b; lia).
    pose proof (log2_half hole second ltac:(lia) ltac:(lia)). apply IH in E6; lia.
  - apply cret_inv in E. destruct E as [E ->]. injection E as <- <- <-. lia.
Qed.
Lemma adjust_cost first hole len value m m' c : 0 <= hole < len ->
  adjust_heap_c comp_c m first hole len value = Ok (m', c) -> Z.of_nat c <= 2 * Z.log2 len.
Proof.
  intros H E. unfold adjust_heap_c in E. cbv zeta in E. cinv E as r E1 E2. destruct r as [[m1 h] s].
  apply adjust_loop_cost in E1; [|assumption]. destruct E1 as (-> & HL & C1). pose proof (Z.log2_nonneg (hole + 1)).
  pose proof (Z.log2_le_mono (h + 1) len ltac:(lia)).
  cinv E2 as r E3 E4. destruct r as [m2 h2].
  assert (R : 0 <= h2 < len /\ cost1 = 0%nat).
  { destruct (Z.even len) eqn:EV; cbn [andb] in E3; [|apply cret_inv in E3; destruct E3 as [E3 ->]; injection E3 as <- <-; lia].
    apply Z.even_spec in EV. destruct EV as (q & EV). rewrite Z.quot_div_nonneg in E3 by lia.
    replace ((len - 2) / 2) with (q - 1) in E3 by (rewrite EV; replace (2 * q - 2) with ((q - 1) * 2) by lia; rewrite Z.div_mul by lia; reflexivity).
    destruct (Z.eqb_spec h (q - 1)) as [EH|NH]; [|apply cret_inv in E3; destruct E3 as [E3 ->]; injection E3 as <- <-; lia].
    cinv E3 as x E5 E6. apply free_ok in E5. cinv E6 as m3 E7 E8. apply free_ok in E7. apply cret_inv in E8. destruct E8 as [E8 ->].
    assert (h2 = 2 * (h + 1) - 1) by congruence. lia. }
  apply push_cost in E4; try lia. pose proof (Z.log2_le_mono (h2 + 1) len ltac:(lia)). lia.
Qed.
Lemma make_loop_cost first len : forall fuel m par m' c, 0 <= par < len ->
  make_heap_loop_c comp_c fuel m first len par = Ok (m', c) -> Z.of_nat c <= (par + 1) * (2 * Z.log2 len).
Proof.
  induction fuel as [|f IH]; intros m par m' c P E; [discriminate|]. cbn [make_heap_loop_c] in E. cinv E as x E1 E2. apply free_ok in E1.
  cinv E2 as m1 E3 E4. apply adjust_cost in E3; [|assumption]. pose proof (Z.log2_nonneg len). destruct (Z.eqb_spec par 0) as [->|N].
  - apply cret_inv in E4. lia.
  - apply IH in E4; [|lia]. nia.
Qed.
Lemma make_cost first last m m' c : first <= last -> make_heap_c comp_c m first last = Ok (m', c) -> Z.of_nat c <= (last - first) * Z.log2 (last - first).
Proof.
  intros F E. unfold make_heap_c in E. pose proof (Z.log2_nonneg (last - first)). destruct (Z.ltb_spec (last - first) 2) as [L|L]; [apply cret_inv in E; nia|].
  rewrite Z.quot_div_nonneg in E by lia. pose proof (Z.div_mod (last - first - 2) 2 ltac:(lia)). pose proof (Z.mod_pos_bound (last - first - 2) 2 ltac:(lia)).
  apply make_loop_cost in E; [|lia]. nia.
Qed.
Lemma sort_heap_cost first L : 0 <= L -> forall fuel m last m' c, first <= last -> Z.log2 (last - first) <= L ->
  sort_heap_c comp_c fuel m first last = Ok (m', c) -> Z.of_nat c <= (last - first) * (2 * L).
Proof.
  intros L0. induction fuel as [|f IH]; intros m last m' c F LE E; [discriminate|]. cbn [sort_heap_c] in E.
  destruct (Z.gtb_spec (last - first) 1) as [G|G]; [|apply cret_inv in E; nia].
  cbv zeta in E. cinv E as m1 E1 E2. unfold pop_heap_c in E1. cinv E1 as x E3 E4. apply free_ok in E3. cinv E4 as y E5 E6. apply free_ok in E5.
  cinv E6 as m2 E7 E8. apply free_ok in E7. apply adjust_cost in E8; [|lia]. pose proof (Z.log2_le_mono (last - 1 - first) (last - first) ltac:(lia)).
  apply IH in E2; [|lia|lia]. nia.
Qed.
Lemma partial_cost first last m m' c : first <= last -> partial_sort_c comp_c m first last = Ok (m', c) ->
  Z.of_nat c <= 3 * ((last - first) * Z.log2 (last - first)).
Proof.
  intros F E. unfold partial_sort_c in E. cinv E as m1 E1 E2. apply make_cost in E1; [|lia].
  apply (sort_heap_cost first (Z.log2 (last - first)) (Z.log2_nonneg _)) in E2; [|lia|lia]. nia.
Qed.

(** ** Introsort *)
Lemma introsort_cost L d : 0 <= L -> forall m first last m' c, 0 <= first <= last -> last <= zlen m -> Z.log2 (last - first) <= L ->
  introsort_loop_c comp_c d m first last = Ok (m', c) ->
  Z.of_nat c <= (last - first) * (2 * Z.of_nat d + 3 * L) /\ near first last m'.
Proof.
  intros L0. induction d as [|d IH]; intros m first last m' c F LZ LE E; cbn [introsort_loop_c] in E; unfold threshold in E;
    (destruct (Z.gtb_spec (last - first) 16) as [G|G]; [|apply cret_inv in E; destruct E as [-> ->]; split; [nia|intros i j I J H; lia]]).
  - destruct (partial_sort_ok comp k comp_k first last m F LZ) as (m1 & E1 & S1 & SO). pose proof (erase_run _ _ _ E) as Y.
    rewrite (erase_partial comp comp_c comp_erase), E1 in Y. injection Y as <-. apply partial_cost in E; [|lia]. split; [nia|]. intros i j I J H. apply SO; lia.
  - destruct (partition_pivot_ok comp k comp_k first last m) as (m1 & cut & v & E1 & S1 & C & A & B); try lia.
    cinv E as r E2 E3. destruct r as [m0 cut0]. pose proof (erase_run _ _ _ E2) as Y. rewrite (erase_pivot comp comp_c comp_erase), E1 in Y. injection Y as <- <-.
    apply pivot_cost in E2; try lia. pose proof (shuf_len _ _ _ _ S1) as L1. cinv E3 as m2 E4 E5.
    destruct (introsort_loop_ok comp k comp_k d m1 cut last) as (m2' & E6 & S2 & _); try lia.
    pose proof (erase_run _ _ _ E4) as Y. rewrite (erase_intro comp comp_c comp_erase), E6 in Y. injection Y as ->. pose proof (shuf_len _ _ _ _ S2) as L2.
    destruct (introsort_loop_ok comp k comp_k d m2 first cut) as (m3' & E7 & S3 & _); try lia.
    pose proof (erase_run _ _ _ E5) as Y. rewrite (erase_intro comp comp_c comp_erase), E7 in Y. injection Y as ->. pose proof (shuf_len _ _ _ _ S3) as L3.
    pose proof (Z.log2_le_mono (last - cut) (last - first) ltac:(lia)). pose proof (Z.log2_le_mono (cut - first) (last - first) ltac:(lia)).
    apply IH in E4; try lia. apply IH in E5; try lia. destruct E4 as [C4 N4], E5 as [C5 N5]. split; [nia|].
    assert (R : forall j, cut <= j < last -> v <= k (get m' j)).
    { intros x X. rewrite (shuf_out first cut m2 m' x) by (assumption || lia). revert x X.
      apply (shuf_all cut last m1 m2 (fun w => v <= k w) cut last); try lia; assumption. }
    assert (Lf : forall j, first <= j < cut -> k (get m' j) <= v).
    { apply (shuf_all first cut m2 m' (fun w => k w <= v) first cut); try lia; [assumption|].
      intros x X. rewrite (shuf_out cut last m1 m2 x) by (assumption || lia). apply A. lia. }
    intros i j I J H'. destruct (Z_lt_ge_dec j cut) as [JC|JC]; [apply N5; lia|]. destruct (Z_lt_ge_dec i cut) as [IC|IC].
    + specialize (R j). specialize (Lf i). lia.
    + rewrite !(shuf_out first cut m2 m') by (assumption || lia). apply N4; lia.
Qed.

Theorem std_sort_cost first last m : 0 <= first <= last -> last <= zlen m ->
  exists m' c, std_sort_c comp_c m first last = Ok (m', c) /\ std_sort comp m first last = Ok m' /\
    Z.of_nat c <= (last - first) * (7 * Z.log2 (last - first) + 16).
Proof.
  intros F Z. destruct (std_sort_spec comp k comp_k first last m F Z) as (m' & E & S & SO). pose proof E as E0.
  rewrite <- (erase_sort comp comp_c comp_erase) in E. apply erase_ok in E. destruct E as (c & E). exists m', c. split; [assumption|]. split; [assumption|].
  unfold std_sort_c in E. pose proof (Z.log2_nonneg (last - first)) as LN. destruct (Z.eqb_spec first last) as [EQ|NE]; cbn [negb] in E; [apply cret_inv in E; nia|].
  cinv E as m1 E1 E2. destruct (introsort_loop_ok comp k comp_k (Z.to_nat (Z.log2 (last - first) * 2)) m first last F Z) as (m1' & E3 & S1 & M1).
  pose proof (erase_run _ _ _ E1) as Y. rewrite (erase_intro comp comp_c comp_erase), E3 in Y. injection Y as ->. pose proof (shuf_len _ _ _ _ S1) as L1.
  apply (introsort_cost (Z.log2 (last - first))) in E1; try lia. destruct E1 as [C1 N1].
  rewrite Z2Nat.id in C1 by lia. apply final_cost in E2; [nia|lia|lia|assumption|assumption].
Qed.
End Count.
