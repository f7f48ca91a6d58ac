(** * Proofs: the counted functions erase to the model, and their counts *)
From Verif Require Import Prelude DataTables PropsModel Utf8Model TextModel Utf8Spec UnicodeSpec GraphemeSpec TextSpec
  PropsProofs Utf8Proofs LawfulProofs IterProofs DecompTables DecompProofs GraphemeProofs Uax29Proofs GraphemeText NormSpec
  FilterSpec FilterProofs CostModel.
Require Import ZifyBool ZifyNat ArithRing.

(** ** Erasure *)
Lemma erase_bind {A B} (m : counted A) (f : A -> counted B) : erase (cbind m f) = let* a := erase m in erase (f a).
Proof. destruct m as [[a k]|u|]; cbn; [destruct (f a) as [[b l]|u|]|..]; reflexivity. Qed.
Lemma erase_one {A} (m : res A) : erase (one m) = m.
Proof. destruct m; reflexivity. Qed.
Lemma erase_free {A} (m : res A) : erase (free m) = m.
Proof. destruct m; reflexivity. Qed.
Lemma bind_ext {A B} (m m' : res A) (f g : A -> res B) : m = m' -> (forall a, f a = g a) -> bind m f = bind m' g.
Proof. intros <- H. destruct m; [apply H|reflexivity|reflexivity]. Qed.

Lemma erase_find_end_loop ops end_ fuel : forall a eog, erase (find_end_loop_c fuel ops end_ a eog) = find_end_loop fuel ops end_ a eog.
Proof.
  induction fuel as [|f IH]; intros a eog; [reflexivity|]. cbn [find_end_loop_c find_end_loop]. rewrite erase_bind, erase_one.
  apply bind_ext; [reflexivity|]. intros [|]; [reflexivity|]. rewrite erase_bind, erase_one. apply bind_ext; [reflexivity|].
  intros [b eog']. rewrite erase_bind, erase_free. apply bind_ext; [reflexivity|]. intros [|]; [reflexivity|].
  rewrite erase_bind, erase_one. apply bind_ext; [reflexivity|]. intros q. apply IH.
Qed.
Lemma erase_find_end fuel ops end_ eog : erase (find_end_of_grapheme_c fuel ops end_ eog) = find_end_of_grapheme fuel ops end_ eog.
Proof.
  unfold find_end_of_grapheme_c, find_end_of_grapheme. rewrite erase_bind, erase_one. apply bind_ext; [reflexivity|].
  intros [|]; [reflexivity|]. rewrite erase_bind, erase_one. apply bind_ext; [reflexivity|]. intros [a q].
  rewrite erase_bind, erase_one. apply bind_ext; [reflexivity|]. intros q'. apply erase_find_end_loop.
Qed.
Lemma erase_find_start_loop ops begin fuel : forall a w, erase (find_start_loop_c fuel ops begin a w) = find_start_loop fuel ops begin a w.
Proof.
  induction fuel as [|f IH]; intros a eog; [reflexivity|]. cbn [find_start_loop_c find_start_loop]. rewrite erase_bind, erase_one.
  apply bind_ext; [reflexivity|]. intros [|]; [reflexivity|]. rewrite erase_bind, erase_one. apply bind_ext; [reflexivity|].
  intros [b eog']. rewrite erase_bind, erase_free. apply bind_ext; [reflexivity|]. intros [|]; [reflexivity|].
  rewrite erase_bind, erase_one. apply bind_ext; [reflexivity|]. intros q. apply IH.
Qed.
Lemma erase_find_start fuel ops begin w : erase (find_start_of_grapheme_c fuel ops begin w) = find_start_of_grapheme fuel ops begin w.
Proof.
  unfold find_start_of_grapheme_c, find_start_of_grapheme. rewrite erase_bind, erase_one. apply bind_ext; [reflexivity|].
  intros [|]; [reflexivity|]. rewrite erase_bind, erase_one. apply bind_ext; [reflexivity|]. intros q.
  rewrite erase_bind, erase_one. apply bind_ext; [reflexivity|]. intros [a q']. apply erase_find_start_loop.
Qed.
Lemma erase_begin fuel ops b e : erase (grapheme_begin_c fuel ops b e) = grapheme_begin fuel ops b e.
Proof. unfold grapheme_begin_c. rewrite erase_bind, erase_find_end. reflexivity. Qed.
Lemma erase_end fuel ops b e : erase (grapheme_end_c fuel ops b e) = grapheme_end fuel ops b e.
Proof.
  unfold grapheme_end_c. rewrite erase_bind, erase_find_start. apply bind_ext; [reflexivity|]. intros w.
  rewrite erase_bind, erase_find_end. reflexivity.
Qed.
Lemma erase_step fuel ops g : erase (gi_step_c fuel ops g) = gi_step fuel ops g.
Proof.
  unfold gi_step_c, gi_step, gi_postinc, gi_inc. rewrite erase_bind, erase_find_end.
  destruct (find_end_of_grapheme fuel ops (g_end g) (g_eog g)); reflexivity.
Qed.
Lemma erase_eq_cp_loop ops eog other fuel : forall copy, erase (gi_eq_cp_loop_c fuel ops eog copy other) = gi_eq_cp_loop fuel ops eog copy other.
Proof.
  induction fuel as [|f IH]; intros copy; [reflexivity|]. cbn [gi_eq_cp_loop_c gi_eq_cp_loop]. rewrite erase_bind, erase_one.
  apply bind_ext; [reflexivity|]. intros [|]; [reflexivity|]. rewrite erase_bind, erase_one. apply bind_ext; [reflexivity|].
  intros [|]; [reflexivity|]. rewrite erase_bind, erase_one. apply bind_ext; [reflexivity|]. intros q. apply IH.
Qed.
Lemma erase_eq_cp fuel ops g other : erase (gi_eq_cp_c fuel ops g other) = gi_eq_cp fuel ops g other.
Proof.
  unfold gi_eq_cp_c, gi_eq_cp. rewrite erase_bind, erase_one. apply bind_ext; [reflexivity|]. intros [|]; [reflexivity|]. apply erase_eq_cp_loop.
Qed.
Lemma erase_eq_loop ops eog other fuel : forall copy, erase (gi_eq_loop_c fuel ops eog copy other) = gi_eq_loop fuel ops eog copy other.
Proof.
  induction fuel as [|f IH]; intros copy; [reflexivity|]. cbn [gi_eq_loop_c gi_eq_loop]. rewrite erase_bind, erase_one.
  apply bind_ext; [reflexivity|]. intros [|]; [reflexivity|]. rewrite erase_bind, erase_eq_cp. apply bind_ext; [reflexivity|].
  intros [|]; [reflexivity|]. rewrite erase_bind, erase_one. apply bind_ext; [reflexivity|]. intros q. apply IH.
Qed.
Lemma erase_eq fuel ops g h : erase (gi_eq_c fuel ops g h) = gi_eq fuel ops g h.
Proof.
  unfold gi_eq_c, gi_eq. rewrite erase_bind, erase_one. apply bind_ext; [reflexivity|]. intros c1. rewrite erase_bind.
  apply bind_ext; [destruct c1; [apply erase_eq_cp|reflexivity]|]. intros [|]; [reflexivity|]. apply erase_eq_loop.
Qed.
Lemma erase_neq fuel ops g h : erase (gi_neq_c fuel ops g h) = gi_neq fuel ops g h.
Proof. unfold gi_neq_c, gi_neq. rewrite erase_bind, erase_eq. reflexivity. Qed.
Lemma erase_filter {It Elem Out} neq deref inc (operation : Elem -> Out -> counted (Z * Out)) neq' deref' inc' operation'
  (En : forall p q : It, erase (neq p q) = neq' p q) (Ed : forall p, erase (deref p) = deref' p) (Ei : forall p, erase (inc p) = inc' p)
  (Eo : forall x o, erase (operation x o) = operation' x o) fuel : forall from to out counter,
  erase (filter_loop_c fuel neq deref inc operation from to out counter) = filter_loop fuel neq' deref' inc' operation' from to out counter.
Proof.
  induction fuel as [|f IH]; intros from to out counter; [reflexivity|]. cbn [filter_loop_c filter_loop]. rewrite erase_bind, En.
  apply bind_ext; [reflexivity|]. intros [|]; [|reflexivity]. rewrite erase_bind, Ed. apply bind_ext; [reflexivity|]. intros [x from'].
  rewrite erase_bind, Eo. apply bind_ext; [reflexivity|]. intros [m out']. rewrite erase_bind, erase_free. apply bind_ext; [reflexivity|].
  intros c'. rewrite erase_bind, Ei. apply bind_ext; [reflexivity|]. intros from''. apply IH.
Qed.
Lemma erase_decompose fuel ops dec g : erase (decompose_grapheme_c fuel ops dec g) = decompose_grapheme fuel ops dec g.
Proof. apply erase_filter; intros; first [apply erase_one|apply erase_free]. Qed.
Lemma erase_decomposed sort append fuel ops dec g out :
  erase (form_decomposed_c sort append fuel ops dec g out) = form_decomposed sort append fuel ops dec g out.
Proof.
  unfold form_decomposed_c, form_decomposed. rewrite erase_bind, erase_decompose. apply bind_ext; [reflexivity|]. intros [m d].
  rewrite erase_bind, erase_free. reflexivity.
Qed.
Lemma erase_composed sort append fuel ops dec g out :
  erase (form_composed_c sort append fuel ops dec g out) = form_composed sort append fuel ops dec g out.
Proof.
  unfold form_composed_c, form_composed. rewrite erase_bind, erase_decompose. apply bind_ext; [reflexivity|]. intros [m d].
  rewrite erase_bind, erase_free. apply bind_ext; [reflexivity|]. intros [[x oi] y]. rewrite erase_bind, erase_free. reflexivity.
Qed.
Lemma erase_normalize fuel ops form form' b e out : (forall p o, erase (form p o) = form' p o) ->
  erase (normalize_c fuel ops form b e out) = normalize fuel ops form' b e out.
Proof.
  intros E. unfold normalize_c, normalize. rewrite erase_bind, erase_begin. apply bind_ext; [reflexivity|]. intros from.
  rewrite erase_bind, erase_end. apply bind_ext; [reflexivity|]. intros to.
  apply erase_filter; [intros; apply erase_neq|reflexivity|intros; apply erase_step|exact E].
Qed.
Lemma erase_ok {A} (m : counted A) a : erase m = Ok a -> exists k, m = Ok (a, k).
Proof. destruct m as [[x k]|u|]; cbn; try discriminate. intros [= ->]. eauto. Qed.

(** ** Counts *)
Lemma cbind_ok {A B} (m : counted A) (f : A -> counted B) b k : cbind m f = Ok (b, k) ->
  exists a k1 k2, m = Ok (a, k1) /\ f a = Ok (b, k2) /\ k = (k1 + k2)%nat.
Proof.
  destruct m as [[a k1]|u|]; cbn; try discriminate. destruct (f a) as [[b' k2]|u|] eqn:E; try discriminate.
  intros [= <- <-]. eauto 8.
Qed.
Lemma one_ok {A} (m : res A) a k : one m = Ok (a, k) -> m = Ok a /\ k = 1%nat.
Proof. destruct m; cbn; try discriminate. intros [= <- <-]. auto. Qed.
Lemma free_ok {A} (m : res A) a k : free m = Ok (a, k) -> m = Ok a /\ k = 0%nat.
Proof. destruct m; cbn; try discriminate. intros [= <- <-]. auto. Qed.

Section Cost.
Context (ops : cp_ops) (all : list Z) (pos : nat -> Z) (inside : nat -> Z -> Prop).
Context (L : lawful ops all pos inside).
Context (n : nat) (Hn : (n < length all)%nat) (e : Z) (He : inside n e).

Ltac step_in H :=
  let a := fresh "a" in let k1 := fresh "k" in let k2 := fresh "k" in let X := fresh "X" in let Y := fresh "Y" in
  apply cbind_ok in H; destruct H as (a & k1 & k2 & X & H & Y).

Lemma nth_ok i : (i < length all)%nat -> exists c, nth_error all i = Some c.
Proof. intros H. apply nth_error_Some in H. destruct (nth_error all i); [eauto|contradiction]. Qed.

Notation brk_at := (brk_at all).
Notation is_end := (is_end all n).
(** Finding the end of a grapheme: 3 operations for each codepoint, and the look at the next one. *)
Definition find_end_count (i j : nat) : nat := 3 * (j - i) + (if (j =? n)%nat then 1 else 2).
Lemma find_end_loop_cost : forall m fuel i j p q k, (j - i = m)%nat -> (0 < i <= j)%nat -> (j <= n)%nat -> inside i p ->
  (forall x, (i <= x < j)%nat -> brk_at x = false) -> (j = n \/ brk_at j = true) ->
  find_end_loop_c fuel ops e (nth (i - 1) all 0) p = Ok (q, k) -> inside j q /\ k = find_end_count i j.
Proof.
  unfold find_end_count. induction m as [|m IH]; intros fuel i j p q k Hm Hij Hj Hp In Out H; (destruct fuel as [|f]; [discriminate|]); cbn [find_end_loop_c] in H;
  rewrite (lw_eq _ _ _ _ L i n p e) in H by (assumption || lia); apply cbind_ok in H; destruct H as (x & k1 & k2 & X & H & ->);
  apply one_ok in X; destruct X as ([= <-] & ->).
  - assert (i = j) by lia. subst j. replace (i - i)%nat with 0%nat by lia. destruct (Nat.eqb_spec i n) as [->|Ne]; [injection H as <- <-; split; [assumption|reflexivity]|].
    rewrite (lw_deref _ _ _ _ L i p _ (nth_all all i ltac:(lia)) Hp) in H.
    apply cbind_ok in H. destruct H as ([b q1] & k3 & k4 & X & H & ->). apply one_ok in X. destruct X as ([= <- <-] & ->).
    rewrite is_grapheme_boundary_eq in H. fold (brk_at i) in H. destruct Out as [|Out]; [contradiction|]. rewrite Out in H.
    injection H as <- <-. split; [apply (lw_pos _ _ _ _ L); lia|reflexivity].
  - destruct (Nat.eqb_spec i n) as [->|Ne]; [lia|].
    rewrite (lw_deref _ _ _ _ L i p _ (nth_all all i ltac:(lia)) Hp) in H.
    apply cbind_ok in H. destruct H as ([b q1] & k3 & k4 & X & H & ->). apply one_ok in X. destruct X as ([= <- <-] & ->).
    rewrite is_grapheme_boundary_eq in H. fold (brk_at i) in H. rewrite (In i ltac:(lia)) in H.
    apply cbind_ok in H. destruct H as (br & k5 & k6 & X & H & ->). apply free_ok in X. destruct X as ([= <-] & ->).
    rewrite (lw_step _ _ _ _ L i (pos i)) in H by (try apply (lw_pos _ _ _ _ L); lia).
    apply cbind_ok in H. destruct H as (q2 & k7 & k8 & X & H & ->). apply one_ok in X. destruct X as ([= <-] & ->).
    destruct (IH f (S i) j (pos (S i)) q k8) as (Q & ->); try lia; try assumption; [apply (lw_pos _ _ _ _ L); lia|intros; apply In; lia| |].
    { replace (S i - 1)%nat with i by lia. exact H. }
    split; [assumption|]. destruct (j =? n)%nat; lia.
Qed.
Lemma find_end_cost fuel i j p q k : is_end i j -> inside i p -> find_end_of_grapheme_c fuel ops e p = Ok (q, k) ->
  inside j q /\ k = find_end_count i j.
Proof.
  intros ((Hi & Hj) & In & Out) Hp H. unfold find_end_of_grapheme_c in H.
  rewrite (lw_eq _ _ _ _ L i n p e) in H by (assumption || lia). apply cbind_ok in H. destruct H as (x & k1 & k2 & X & H & ->).
  apply one_ok in X. destruct X as ([= <-] & ->). destruct (Nat.eqb_spec i n) as [->|Ne]; [lia|].
  rewrite (lw_deref _ _ _ _ L i p _ (nth_all all i ltac:(lia)) Hp) in H.
  apply cbind_ok in H. destruct H as ([b q1] & k3 & k4 & X & H & ->). apply one_ok in X. destruct X as ([= <- <-] & ->).
  rewrite (lw_step _ _ _ _ L i (pos i)) in H by (try apply (lw_pos _ _ _ _ L); lia).
  apply cbind_ok in H. destruct H as (q2 & k7 & k8 & X & H & ->). apply one_ok in X. destruct X as ([= <-] & ->).
  destruct (find_end_loop_cost (j - S i) fuel (S i) j (pos (S i)) q k8) as (Q & ->); try lia; try assumption;
    [apply (lw_pos _ _ _ _ L); lia| |].
  { replace (S i - 1)%nat with i by lia. exact H. }
  split; [assumption|]. unfold find_end_count. destruct (j =? n)%nat; lia.
Qed.
Lemma find_end_cost_end fuel p q k : inside n p -> find_end_of_grapheme_c fuel ops e p = Ok (q, k) -> q = p /\ k = 1%nat.
Proof.
  intros Hp H. unfold find_end_of_grapheme_c in H.
  rewrite (lw_eq _ _ _ _ L n n p e) in H by (assumption || lia). rewrite Nat.eqb_refl in H. injection H as <- <-. auto.
Qed.
Context (b : Z) (Hb : inside 0 b).
(** At the end of a text that ends at a boundary, one look suffices. *)
Lemma find_start_cost fuel q k : (n = 0%nat \/ brk_at n = true) -> find_start_of_grapheme_c fuel ops b e = Ok (q, k) ->
  k = if (n =? 0)%nat then 1%nat else 5%nat.
Proof.
  intros Bk H. unfold find_start_of_grapheme_c in H.
  rewrite (lw_eq _ _ _ _ L n 0 e b) in H by (assumption || lia). apply cbind_ok in H. destruct H as (x & k1 & k2 & X & H & ->).
  apply one_ok in X. destruct X as ([= <-] & ->). destruct (Nat.eqb_spec n 0) as [Z|Ne]; [injection H as <- <-; reflexivity|].
  destruct Bk as [|Bk]; [contradiction|]. destruct fuel as [|f].
  { apply cbind_ok in H. destruct H as (? & ? & ? & _ & H & _). apply cbind_ok in H. destruct H as ([? ?] & ? & ? & _ & H & _). discriminate. }
  assert (En : n = S (n - 1)) by lia.
  assert (D : op_dec ops e = Ok (pos (n - 1))) by (apply (lw_dec _ _ _ _ L); [lia|rewrite <- En; assumption]). rewrite D in H. cbn [one cbind] in H.
  rewrite (lw_deref _ _ _ _ L (n - 1) (pos (n - 1)) _ (nth_all all (n - 1) ltac:(lia)) (lw_pos _ _ _ _ L (n - 1) ltac:(lia))) in H.
  cbn [one cbind find_start_loop_c] in H. rewrite (lw_eq _ _ _ _ L n 0 e b) in H by (assumption || lia).
  destruct (Nat.eqb_spec n 0); [lia|]. cbn [one cbind] in H.
  rewrite (lw_deref _ _ _ _ L n e _ (nth_all all n ltac:(lia)) He) in H. cbn [one cbind] in H.
  rewrite is_grapheme_boundary_eq in H. fold (brk_at n) in H. rewrite Bk in H. injection H as <- <-. reflexivity.
Qed.

(** An iterator with its grapheme [i, j). *)
Definition stands (g : gi) (i j : nat) : Prop :=
  inside i (g_where g) /\ inside j (g_eog g) /\ g_end g = e /\ (i <= j <= n)%nat /\ ((i < n)%nat -> is_end i j).
Lemma step_cost fuel g i j g' k : stands g i j -> gi_step_c fuel ops g = Ok (g', k) ->
  exists j', stands g' j j' /\ k = if (j =? n)%nat then 1%nat else find_end_count j j'.
Proof.
  intros (W & O & E & Hij & _) H. unfold gi_step_c in H. apply cbind_ok in H. destruct H as (q & k1 & k2 & X & H & ->). injection H as <- <-.
  rewrite E in X. destruct (Nat.eqb_spec j n) as [->|Ne].
  - destruct (find_end_cost_end fuel (g_eog g) q k1 O X) as (-> & ->). exists n. split; [|lia].
    split; [exact O|]. split; [exact O|]. split; [exact E|]. split; [lia|]. intros. lia.
  - destruct (is_end_exists ops all pos inside L n Hn e He j ltac:(lia)) as (j' & J).
    destruct (find_end_cost fuel j j' (g_eog g) q k1 J O X) as (Q & ->). exists j'. pose proof J as ((J1 & J2) & _).
    split; [|lia]. split; [exact O|]. split; [exact Q|]. split; [exact E|]. split; [lia|]. intros; exact J.
Qed.
(** [h] does not lie over [c]: looking for a codepoint in its grapheme. *)
Lemma eq_cp_loop_cost h i' j' c q : stands h i' j' -> (c <= n)%nat -> inside c q -> (c < i' \/ j' <= c)%nat ->
  forall fuel d p, (i' <= d <= j')%nat -> (j' - d < fuel)%nat -> inside d p ->
  gi_eq_cp_loop_c fuel ops (g_eog h) p q = Ok (false, (3 * (j' - d) + 1)%nat).
Proof.
  intros (W & O & E & Hij & _) Hc Hq Out. induction fuel as [|f IH]; intros d p Hd Hf Hp; [lia|].
  cbn [gi_eq_cp_loop_c]. rewrite (lw_eq _ _ _ _ L d j' p (g_eog h)) by (assumption || lia). cbn [one cbind].
  destruct (Nat.eqb_spec d j') as [->|Ne]; [unfold cret; do 2 f_equal; lia|].
  rewrite (lw_eq _ _ _ _ L d c p q) by (assumption || lia). cbn [one cbind]. destruct (Nat.eqb_spec d c) as [->|Nd]; [lia|].
  rewrite (lw_step _ _ _ _ L d p) by (assumption || lia). cbn [one cbind].
  rewrite (IH (S d)) by (try (apply (lw_pos _ _ _ _ L)); lia). do 2 f_equal. lia.
Qed.
Lemma eq_cp_cost fuel h i' j' c q : stands h i' j' -> (c <= n)%nat -> inside c q -> (c < i' \/ j' <= c)%nat -> (c <> i') -> (j' - i' < fuel)%nat ->
  gi_eq_cp_c fuel ops h q = Ok (false, (3 * (j' - i') + 2)%nat).
Proof.
  intros St Hc Hq Out Nc Hf. pose proof St as (W & O & E & Hij & _). unfold gi_eq_cp_c.
  rewrite (lw_eq _ _ _ _ L i' c (g_where h) q) by (assumption || lia). cbn [one cbind]. destruct (Nat.eqb_spec i' c); [congruence|].
  rewrite (eq_cp_loop_cost h i' j' c q St Hc Hq Out fuel i' (g_where h)) by (assumption || lia). do 2 f_equal. lia.
Qed.
(** Comparing the codepoints [c, j) of one grapheme with another grapheme [i', j') that holds none of them. *)
Lemma eq_loop_cost h i' j' j eog : stands h i' j' -> inside j eog -> (j <= n)%nat ->
  forall m fuel c p, (j - c = m)%nat -> (c <= j)%nat -> inside c p -> (j <= i' \/ (j' <= c /\ i' < c))%nat -> (m + (j' - i') < fuel)%nat ->
  gi_eq_loop_c fuel ops eog p h = Ok (false, (m * (3 * (j' - i') + 4) + 1)%nat).
Proof.
  intros St Heog Hj. induction m as [|m IH]; intros fuel c p Em Hc Hp Out Hf; (destruct fuel as [|f]; [lia|]); cbn [gi_eq_loop_c].
  - rewrite (lw_eq _ _ _ _ L c j p eog) by (assumption || lia). cbn [one cbind]. destruct (Nat.eqb_spec c j); [reflexivity|lia].
  - rewrite (lw_eq _ _ _ _ L c j p eog) by (assumption || lia). cbn [one cbind]. destruct (Nat.eqb_spec c j); [lia|].
    rewrite (eq_cp_cost (S f) h i' j' c p St) by (assumption || lia). cbn [cbind].
    rewrite (lw_step _ _ _ _ L c p) by (assumption || lia). cbn [one cbind].
    rewrite (IH f (S c) (pos (S c))) by (try (apply (lw_pos _ _ _ _ L)); lia). do 2 f_equal. lia.
Qed.
Lemma eq_cost fuel g i j h i' j' : stands g i j -> stands h i' j' -> (i < n)%nat -> (j <= i' \/ (j' <= i /\ i' < i))%nat -> (n < fuel)%nat ->
  gi_eq_c fuel ops g h = Ok (false, ((j - i) * (3 * (j' - i') + 4) + 2)%nat).
Proof.
  intros (W & O & E & Hij & _) St Hi Out Hf. unfold gi_eq_c. rewrite E, (lw_eq _ _ _ _ L i n (g_where g) e) by (assumption || lia).
  cbn [one cbind]. destruct (Nat.eqb_spec i n); [lia|]. cbn [cret cbind].
  pose proof St as (_ & _ & _ & Hij' & _).
  rewrite (eq_loop_cost h i' j' j (g_eog g) St O ltac:(lia) (j - i) fuel i (g_where g)) by (assumption || lia). do 2 f_equal. lia.
Qed.
Lemma neq_end_cost fuel g i j ge : stands g i j -> stands ge n n -> (n < fuel)%nat ->
  gi_neq_c fuel ops g ge = Ok (negb (i =? n)%nat, if (i =? n)%nat then 2%nat else (4 * (j - i) + 2)%nat).
Proof.
  intros St Se Hf. destruct (Nat.eq_dec i n) as [->|Ne].
  - destruct St as (W & O & E & Hij & _). unfold gi_neq_c, gi_eq_c. rewrite E, (lw_eq _ _ _ _ L n n (g_where g) e) by (assumption || lia).
    rewrite Nat.eqb_refl. cbn [one cbind]. unfold gi_eq_cp_c. destruct Se as (We & Oe & Ee & _).
    rewrite (lw_eq _ _ _ _ L n n (g_where ge) e) by (assumption || lia). rewrite Nat.eqb_refl. reflexivity.
  - pose proof St as (_ & _ & _ & Hij & _). unfold gi_neq_c. rewrite (eq_cost fuel g i j ge n n St Se) by lia. cbn [cbind cret].
    destruct (Nat.eqb_spec i n); [contradiction|]. cbn [negb]. do 2 f_equal. lia.
Qed.

Lemma filter_cost {Out} (operation : Z * Z -> Out -> counted (Z * Out)) (A B : nat) fuel0 :
  (n < fuel0)%nat ->
  (forall p q i j out r k, (i <= j <= n)%nat -> inside i p -> inside j q -> operation (p, q) out = Ok (r, k) -> k = (A * (j - i) + B)%nat) ->
  forall fuel g i j ge out counter r k, stands g i j -> stands ge n n ->
  filter_loop_c fuel (gi_neq_c fuel0 ops) (fun g => cret (gi_deref g, g)) (gi_step_c fuel0 ops) operation g ge out counter = Ok (r, k) ->
  if (i =? n)%nat then k = 2%nat
  else (find_end_count i j + k = (7 + A) * (n - i) + (4 + B) * length (seg (sub all i n)) + 2)%nat.
Proof.
  intros Hf0 Hop. induction fuel as [|f IH]; intros g i j ge out counter r k St Se H; [discriminate|]. cbn [filter_loop_c] in H.
  rewrite (neq_end_cost fuel0 g i j ge St Se Hf0) in H.
  apply cbind_ok in H. destruct H as (x & k1 & k2 & X & H & ->). injection X as <- <-. pose proof St as (W & O & E & Hij & Pr).
  destruct (Nat.eqb_spec i n) as [->|Ne]; cbn [negb] in H.
  { injection H as <- <-. reflexivity. }
  apply cbind_ok in H. destruct H as ([y g1] & k3 & k4 & X & H & ->). injection X as <- <- <-.
  apply cbind_ok in H. destruct H as ([m out'] & k5 & k6 & X & H & ->).
  pose proof (Hop (g_where g) (g_eog g) i j out _ _ Hij W O X) as ->.
  apply cbind_ok in H. destruct H as (ctr & k7 & k8 & X' & H & ->). apply free_ok in X'. destruct X' as (_ & ->).
  apply cbind_ok in H. destruct H as (g2 & k9 & k10 & X' & H & ->).
  destruct (step_cost fuel0 g i j g2 k9 St X') as (j' & St' & ->). pose proof St' as (_ & _ & _ & Hj' & _).
  pose proof (IH g2 j j' ge out' ctr r k10 St' Se H) as K10. specialize (Pr ltac:(lia)).
  rewrite (seg_step all n Hn (j - i) i j eq_refl Pr). cbn [length]. pose proof Pr as ((P1 & P2) & _). unfold find_end_count at 1.
  destruct (Nat.eqb_spec j n) as [->|Nj].
  - subst k10. rewrite sub_nil. cbn [seg length]. ring.
  - assert (N1 : (n - i = (n - j) + (j - i))%nat) by (clear - P1 P2; lia). rewrite N1, K10. clear. generalize (length (seg (sub all j n))) (n - j)%nat (j - i)%nat. intros. ring.
Qed.
Lemma decompose_cost fuel dec : forall i j p q out counter r k, (i <= j <= n)%nat -> inside i p -> inside j q ->
  filter_loop_c fuel (fun p q => one (op_neq ops p q)) (fun p => one (op_deref ops p)) (fun p => one (op_step ops p))
    (fun c (out : list Z) => free (dec c out)) p q out counter = Ok (r, k) -> k = (3 * (j - i) + 1)%nat.
Proof.
  induction fuel as [|f IH]; intros i j p q out counter r k Hij Hp Hq H; [discriminate|]. cbn [filter_loop_c] in H.
  rewrite (op_neq_lawful _ _ _ _ i j p q L) in H by (assumption || lia).
  apply cbind_ok in H. destruct H as (x & k1 & k2 & X & H & ->). apply one_ok in X. destruct X as ([= <-] & ->).
  destruct (Nat.eqb_spec i j) as [->|Ne]; cbn [negb] in H; [injection H as <- <-; lia|].
  destruct (nth_ok i ltac:(lia)) as (c & Ec). rewrite (lw_deref _ _ _ _ L i p c Ec Hp) in H.
  apply cbind_ok in H. destruct H as ([c' q1] & k3 & k4 & X & H & ->). apply one_ok in X. destruct X as ([= <- <-] & ->).
  apply cbind_ok in H. destruct H as ([m out'] & k5 & k6 & X & H & ->). apply free_ok in X. destruct X as (_ & ->).
  apply cbind_ok in H. destruct H as (ctr & k7 & k8 & X & H & ->). apply free_ok in X. destruct X as (_ & ->).
  rewrite (lw_step _ _ _ _ L i (pos i)) in H by (try apply (lw_pos _ _ _ _ L); lia).
  apply cbind_ok in H. destruct H as (q2 & k9 & k10 & X & H & ->). apply one_ok in X. destruct X as ([= <-] & ->).
  pose proof (IH (S i) j (pos (S i)) q out' ctr r k10 ltac:(lia) (lw_pos _ _ _ _ L (S i) ltac:(lia)) Hq H). lia.
Qed.
Lemma decomposed_cost sort append fuel dec p q i j out r k : (i <= j <= n)%nat -> inside i p -> inside j q ->
  form_decomposed_c sort append fuel ops dec (p, q) out = Ok (r, k) -> k = (3 * (j - i) + 1)%nat.
Proof.
  intros Hij Hp Hq H. unfold form_decomposed_c in H. apply cbind_ok in H. destruct H as ([m d] & k1 & k2 & X & H & ->).
  pose proof (decompose_cost fuel dec i j p q [] 0 _ _ Hij Hp Hq X).
  apply cbind_ok in H. destruct H as (o & k3 & k4 & X' & H & ->). apply free_ok in X'. destruct X' as (_ & ->). injection H as <- <-. lia.
Qed.
Lemma composed_cost sort append fuel dec p q i j out r k : (i <= j <= n)%nat -> inside i p -> inside j q ->
  form_composed_c sort append fuel ops dec (p, q) out = Ok (r, k) -> k = (3 * (j - i) + 1)%nat.
Proof.
  intros Hij Hp Hq H. unfold form_composed_c in H. apply cbind_ok in H. destruct H as ([m d] & k1 & k2 & X & H & ->).
  pose proof (decompose_cost fuel dec i j p q [] 0 _ _ Hij Hp Hq X).
  apply cbind_ok in H. destruct H as ([[x oi] y] & k3 & k4 & X' & H & ->). apply free_ok in X'. destruct X' as (_ & ->).
  apply cbind_ok in H. destruct H as (o & k5 & k6 & X' & H & ->). apply free_ok in X'. destruct X' as (_ & ->). injection H as <- <-. lia.
Qed.
End Cost.

Section Text.
Context (ops : cp_ops) (b e : Z) (cs : list Z) (c : Z) (pos : nat -> Z) (inside : nat -> Z -> Prop).
Context (T : text_in ops b e cs c pos inside).
Context (B : cs = [] \/ pairwise_boundary cs c).
Let L := ti_lawful _ _ _ _ _ _ _ T.
Let n := length cs.
Let all := cs ++ [c].
Lemma normalize_cost (operation : Z * Z -> list Z -> counted (Z * list Z)) (operation' : Z * Z -> list Z -> res (Z * list Z)) A0 B0 fuel out r :
  (forall p o, erase (operation p o) = operation' p o) ->
  (forall p q i j out r k, (i <= j <= n)%nat -> inside i p -> inside j q -> operation (p, q) out = Ok (r, k) -> k = (A0 * (j - i) + B0)%nat) ->
  (n < fuel)%nat -> normalize fuel ops operation' b e out = Ok r ->
  normalize_c fuel ops operation b e out = Ok (r, if (n =? 0)%nat then 5%nat else ((7 + A0) * n + (4 + B0) * length (seg cs) + 8)%nat).
Proof.
  intros E Hop Hf R. rewrite <- (erase_normalize fuel ops operation operation' b e out E) in R. destruct (erase_ok _ _ R) as (k & Q).
  rewrite Q. do 2 f_equal. unfold normalize_c in Q. pose proof (text_n cs c) as Hn. fold n all in Hn.
  pose proof (text_e ops b e cs c pos inside T) as He.
  assert (Hb : inside 0%nat b) by (rewrite (ti_begin _ _ _ _ _ _ _ T); apply (lw_pos _ _ _ _ L); fold all; lia).
  assert (B' : n = 0%nat \/ brk_at all n = true).
  { apply boundary_after_or in B. destruct B as [->|B1]; [left; reflexivity|]. destruct (Nat.eq_dec n 0) as [|Ne]; [left; assumption|right].
    unfold all, n. rewrite brk_at_last; [exact B1|]. intros Z. apply Ne. unfold n. rewrite Z. reflexivity. }
  apply cbind_ok in Q. destruct Q as (g0 & k1 & k2 & Q1 & Q & ->). apply cbind_ok in Q. destruct Q as (ge & k3 & k4 & Q2 & Q & ->).
  assert (SE : stands all inside n e ge n n /\ k3 = if (n =? 0)%nat then 2%nat else 6%nat).
  { destruct (text_grapheme_end ops b e cs c pos inside T fuel Hf) as (s & ge' & EE & W & _ & Qq & Rr & I).
    rewrite <- (erase_end fuel ops b e), Q2 in EE. injection EE as <-.
    assert (s = length cs) by (apply I, boundary_after_or, B). subst s. split.
    - split; [rewrite W; apply (lw_pos _ _ _ _ L); fold all; exact Hn|]. split; [rewrite Qq; exact He|]. split; [exact Rr|]. split; lia.
    - unfold grapheme_end_c in Q2. apply cbind_ok in Q2. destruct Q2 as (w & k5 & k6 & X & Q2 & ->).
      apply cbind_ok in Q2. destruct Q2 as (w' & k7 & k8 & X' & Q2 & ->). injection Q2 as _ <-.
      pose proof (find_start_cost ops all pos inside L n Hn e He b Hb fuel w k5 B' X) as ->.
      destruct (find_end_cost_end ops all pos inside L n Hn e He fuel e w' k7 He X') as (_ & ->). destruct (n =? 0)%nat; reflexivity. }
  destruct SE as (SE & ->).
  assert (SB : exists j, stands all inside n e g0 0%nat j /\ k1 = if (n =? 0)%nat then 1%nat else find_end_count n 0 j).
  { unfold grapheme_begin_c in Q1. apply cbind_ok in Q1. destruct Q1 as (w & k5 & k6 & X & Q1 & ->). injection Q1 as <- <-.
    destruct (Nat.eqb_spec n 0) as [Z|Ne].
    - assert (Hb' : inside n b) by (rewrite Z; exact Hb).
      destruct (find_end_cost_end ops all pos inside L n Hn e He fuel b w k5 Hb' X) as (-> & ->). exists n. split; [|lia].
      split; [exact Hb|]. split; [exact Hb'|]. split; [reflexivity|]. split; lia.
    - destruct (is_end_exists ops all pos inside L n Hn e He 0%nat ltac:(lia)) as (j & J). exists j. pose proof J as ((J1 & J2) & _).
      destruct (find_end_cost ops all pos inside L n Hn e He fuel 0%nat j b w k5 J Hb X) as (O & ->).
      split; [|lia]. split; [exact Hb|]. split; [exact O|]. split; [reflexivity|]. split; [lia|]. intros; exact J. }
  destruct SB as (j & SB & ->). 
  pose proof (filter_cost ops all pos inside L n Hn e He operation A0 B0 fuel Hf Hop fuel g0 0%nat j ge out 0 r k4 SB SE Q) as K4.
  assert (SC : sub all 0 n = cs) by apply text_sub. rewrite SC in K4.
  rewrite (Nat.eqb_sym 0 n) in K4. destruct (Nat.eqb_spec n 0) as [Z|Ne]; lia.
Qed.
End Text.
