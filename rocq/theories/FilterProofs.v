(** * Proofs: filter, decomposition filter, the normalization loop *)
From Verif Require Import Prelude DataTables PropsModel Utf8Model TextModel Utf8Spec UnicodeSpec GraphemeSpec TextSpec
  PropsProofs Utf8Proofs LawfulProofs IterProofs DecompTables DecompProofs GraphemeProofs Uax29Proofs GraphemeText NormSpec FilterSpec.
Require Import ZifyBool ZifyNat.

(** ** C44 *)
Section Filter.
Context {It Elem Out : Type}.
Context (neq : It -> It -> res bool) (deref : It -> res (Elem * It)) (inc : It -> res It).
Context (operation : Elem -> Out -> res (Z * Out)).
Lemma filter_loop_spec : forall xs from to out counter fuel s out',
  range_of neq deref inc from to xs -> (length xs < fuel)%nat ->
  (filter_loop fuel neq deref inc operation from to out counter = Ok (s, out') <->
   exists ns, calls operation xs out ns out' /\ s = counter + zsum ns /\
     forall k, (0 < k <= length ns)%nat -> is_int (counter + zsum (firstn k ns))).
Proof.
  induction xs as [|x xs IH]; intros from to out counter fuel s out' R Hf;
    (destruct fuel as [|fuel]; [cbn in Hf; lia|]); inversion R as [? ? E|? ? ? from' from'' ? E D I R']; subst;
    cbn [filter_loop]; rewrite E; cbn [bind].
  - split.
    + intros X. injection X as <- <-. exists []. split; [constructor|]. split; [cbn; lia|]. cbn. lia.
    + intros (ns & C & -> & _). inversion C; subst. cbn. rewrite Z.add_0_r. reflexivity.
  - rewrite D. cbn [bind]. destruct (operation x out) as [[n out1]|u|] eqn:EO; cbn [bind].
    2:{ split; [discriminate|]. intros (ns & C & _). inversion C; congruence. }
    2:{ split; [discriminate|]. intros (ns & C & _). inversion C; congruence. }
    assert (AUX : forall ns, (forall k, (0 < k <= length (n :: ns))%nat -> is_int (counter + zsum (firstn k (n :: ns)))) <->
      is_int (counter + n) /\ forall k, (0 < k <= length ns)%nat -> is_int ((counter + n) + zsum (firstn k ns))).
    { intros ns. split.
      - intros H. split.
        + specialize (H 1%nat ltac:(cbn; lia)). cbn in H. rewrite Z.add_0_r in H. assumption.
        + intros k Hk. specialize (H (S k) ltac:(cbn; lia)). cbn [firstn zsum fold_right] in H.
          fold (zsum (firstn k ns)) in H. rewrite Z.add_assoc in H. assumption.
      - intros [H1 H2] k Hk. destruct k as [|[|k]]; [lia| |].
        + cbn. rewrite Z.add_0_r. assumption.
        + cbn [firstn zsum fold_right]. fold (firstn (S k) ns). specialize (H2 (S k) ltac:(cbn in Hk; lia)).
          rewrite Z.add_assoc. exact H2. }
    unfold int_add. destruct ((int_min <=? counter + n) && (counter + n <=? int_max)) eqn:IV; cbn [bind].
    + assert (V : is_int (counter + n)) by (unfold is_int; lia).
      rewrite I. cbn [bind]. rewrite (IH from'' to out1 (counter + n) fuel s out' R' ltac:(cbn in Hf; lia)). split.
      * intros (ns & C & -> & P). exists (n :: ns). split; [econstructor; eassumption|].
        split; [cbn [zsum fold_right]; fold (zsum ns); lia|]. apply AUX. auto.
      * intros (ns & C & -> & P). inversion C as [|? ? ? n0 o1 ns0 ? EO' C']; subst. rewrite EO in EO'. injection EO' as <- <-.
        exists ns0. split; [assumption|]. split; [cbn [zsum fold_right]; fold (zsum ns0); lia|]. apply AUX. assumption.
    + split; [discriminate|]. intros (ns & C & _ & P). inversion C as [|? ? ? n0 o1 ns0 ? EO' C']; subst.
      rewrite EO in EO'. injection EO' as <- <-. apply AUX in P. destruct P as [P _]. unfold is_int in P. lia.
Qed.
End Filter.

(** Nonnegative results whose total fits never overflow. *)
Lemma sums_fit ns : Forall (fun n => 0 <= n) ns -> zsum ns <= int_max ->
  forall k, (0 < k <= length ns)%nat -> is_int (0 + zsum (firstn k ns)).
Proof.
  intros F T k _.
  assert (B : forall k, 0 <= zsum (firstn k ns) <= zsum ns).
  { clear T. induction F as [|n ns Hn _ IH]; intros m; [destruct m; cbn; lia|]. destruct m as [|m]; cbn [firstn zsum fold_right];
      fold (zsum ns); [specialize (IH 0%nat); cbn in IH; lia|]. fold (zsum (firstn m ns)). specialize (IH m). lia. }
  specialize (B k). unfold is_int, int_min. lia.
Qed.
(** An operation that always appends [f x] and returns [cnt x]. *)
Lemma calls_append {Elem} (operation : Elem -> list Z -> res (Z * list Z)) (f : Elem -> list Z) (cnt : Elem -> Z) xs :
  (forall x out, In x xs -> operation x out = Ok (cnt x, out ++ f x)) ->
  forall out, calls operation xs out (map cnt xs) (out ++ flat_map f xs).
Proof.
  intros H. induction xs as [|x xs IH]; intros out; cbn [map flat_map].
  - rewrite app_nil_r. constructor.
  - rewrite app_assoc. econstructor; [apply H; left; reflexivity|]. apply IH. intros. apply H. right. assumption.
Qed.
Lemma filter_append {It Elem} (neq : It -> It -> res bool) deref inc (operation : Elem -> list Z -> res (Z * list Z))
  (f : Elem -> list Z) (cnt : Elem -> Z) xs from to out fuel :
  range_of neq deref inc from to xs -> (length xs < fuel)%nat ->
  (forall x out, In x xs -> operation x out = Ok (cnt x, out ++ f x)) ->
  Forall (fun n => 0 <= n) (map cnt xs) -> zsum (map cnt xs) <= int_max ->
  filter fuel neq deref inc operation from to out = Ok (zsum (map cnt xs), out ++ flat_map f xs).
Proof.
  intros R Hf H F T. unfold filter. apply (filter_loop_spec _ _ _ _ xs _ _ _ _ _ _ _ R Hf).
  exists (map cnt xs). split; [apply calls_append; assumption|]. split; [lia|]. apply sums_fit; assumption.
Qed.

(** ** Ranges of codepoints and of graphemes *)
Section Lawful.
Context (ops : cp_ops) (all : list Z) (pos : nat -> Z) (inside : nat -> Z -> Prop).
Context (L : lawful ops all pos inside).
Lemma codepoint_range : forall m i j p q, (j - i = m)%nat -> (i <= j < length all)%nat -> inside i p -> inside j q ->
  range_of (op_neq ops) (op_deref ops) (op_step ops) p q (sub all i j).
Proof.
  induction m as [|m IH]; intros i j p q Hm Hij Hp Hq.
  - replace j with i in * by lia. rewrite sub_nil. constructor.
    rewrite (op_neq_lawful _ _ _ _ i i p q L), Nat.eqb_refl by (assumption || lia). reflexivity.
  - destruct (nth_lt_some all i ltac:(lia)) as [c E]. rewrite (sub_cons all i j c) by (assumption || lia).
    econstructor.
    + rewrite (op_neq_lawful _ _ _ _ i j p q L) by (assumption || lia). destruct (Nat.eqb_spec i j); [lia|reflexivity].
    + apply (lw_deref _ _ _ _ L i p c E Hp).
    + apply (lw_step _ _ _ _ L i (pos i)); [lia|]. apply (lw_pos _ _ _ _ L). lia.
    + apply IH; try assumption; try lia. apply (lw_pos _ _ _ _ L). lia.
Qed.
Context (n : nat) (Hn : (n < length all)%nat) (e : Z) (He : inside n e).
(** The pair of iterators [p] delimits the codepoints [g]. *)
Definition delimits (p : Z * Z) (g : list Z) : Prop :=
  exists i j, p = (pos i, pos j) /\ (i <= j <= n)%nat /\ g = sub all i j.
Lemma grapheme_range ge fuel0 : at_the_end inside n ge -> (n < fuel0)%nat ->
  forall m i g, (n - i <= m)%nat -> on all pos n e g i ->
  exists ps, range_of (gi_neq fuel0 ops) (fun g => Ok (gi_deref g, g)) (gi_step fuel0 ops) g ge ps /\
    Forall2 delimits ps (seg (sub all i n)).
Proof.
  intros E Hf0. induction m as [|m IH]; intros i g Hm G; pose proof G as (W & En & Hi & A & B).
  - assert (i = n) by lia. subst i. exists []. rewrite sub_nil. split; [|constructor].
    constructor. rewrite (neq_end ops all pos inside L n Hn e He g n ge) by assumption. rewrite Nat.eqb_refl. reflexivity.
  - destruct (Nat.eq_dec i n) as [->|Hne].
    { exists []. rewrite sub_nil. split; [|constructor].
      constructor. rewrite (neq_end ops all pos inside L n Hn e He g n ge) by assumption. rewrite Nat.eqb_refl. reflexivity. }
    destruct (A ltac:(lia)) as (j & J & Ej). pose proof J as ((J1 & J2) & _).
    destruct (gi_step_ok ops all pos inside L n Hn e He g i j fuel0 G J ltac:(nlia)) as (g' & Eg & G').
    destruct (IH j g' ltac:(nlia) G') as (ps & R & F). exists ((pos i, pos j) :: ps).
    rewrite (seg_step all n Hn (j - i) i j eq_refl J). split.
    + econstructor; [|unfold gi_deref; rewrite W, Ej; reflexivity|exact Eg|exact R].
      rewrite (neq_end ops all pos inside L n Hn e He g i ge) by assumption. destruct (Nat.eqb_spec i n); [lia|reflexivity].
    + constructor; [|assumption]. exists i, j. split; [reflexivity|]. split; [lia|reflexivity].
Qed.
Lemma codepoint_filter_ok (operation : Z -> list Z -> res (Z * list Z)) f p g out fuel :
  (forall c out, operation c out = Ok (zlen (f c), out ++ f c)) ->
  delimits p g -> (n < fuel)%nat -> zlen (flat_map f g) <= int_max ->
  filter_codepoints fuel ops operation (fst p) (snd p) out = Ok (zlen (flat_map f g), out ++ flat_map f g).
Proof.
  intros H (i & j & -> & Hij & ->) Hf Hm. cbn [fst snd].
  assert (S : forall l, zsum (map (fun c => zlen (f c)) l) = zlen (flat_map f l)).
  { induction l as [|c l IH]; [reflexivity|]. cbn [map zsum fold_right flat_map]. fold (zsum (map (fun c => zlen (f c)) l)).
    unfold zlen in *. rewrite app_length. lia. }
  unfold filter_codepoints. rewrite (filter_append _ _ _ operation f (fun c => zlen (f c)) (sub all i j)).
  - rewrite S. reflexivity.
  - apply (codepoint_range (j - i) i j); try lia; apply (lw_pos _ _ _ _ L); lia.
  - rewrite sub_length by lia. lia.
  - auto.
  - apply Forall_forall. intros x Hx. apply in_map_iff in Hx. destruct Hx as (c & <- & _). unfold zlen. lia.
  - rewrite S. assumption.
Qed.
End Lawful.

(** ** The normalization loop over a text *)
Lemma Forall2_len {A B} (R : A -> B -> Prop) l l' : Forall2 R l l' -> length l = length l'.
Proof. induction 1; cbn; congruence. Qed.
Lemma Forall2_in_l {A B} (R : A -> B -> Prop) l l' x : Forall2 R l l' -> In x l -> exists y, In y l' /\ R x y.
Proof. induction 1; intros []; [subst; eauto with datatypes|]. destruct IHForall2 as (z & ? & ?); eauto with datatypes. Qed.

Section Normalize.
Context (ops : cp_ops) (b e : Z) (cs : list Z) (c : Z) (pos : nat -> Z) (inside : nat -> Z -> Prop).
Context (T : text_in ops b e cs c pos inside).
Context (B : cs = [] \/ pairwise_boundary cs c).
Let L := ti_lawful _ _ _ _ _ _ _ T.

Lemma normalize_ok (form : Z * Z -> list Z -> res (Z * list Z)) (cnt : list Z -> Z) (f : list Z -> list Z) out fuel :
  (length cs < fuel)%nat ->
  (forall p g out, delimits (cs ++ [c]) pos (length cs) p g -> In g (seg cs) -> form p out = Ok (cnt g, out ++ f g)) ->
  Forall (fun n => 0 <= n) (map cnt (seg cs)) -> zsum (map cnt (seg cs)) <= int_max ->
  normalize fuel ops form b e out = Ok (zsum (map cnt (seg cs)), out ++ flat_map f (seg cs)).
Proof.
  intros Hf H F S. unfold normalize.
  destruct (text_begin ops b e cs c pos inside T fuel ltac:(lia)) as (g0 & -> & G0). cbn [bind].
  destruct (text_grapheme_end ops b e cs c pos inside T fuel Hf) as (s & ge & -> & W & _ & Q & R & I). cbn [bind].
  pose proof (text_e ops b e cs c pos inside T) as He.
  assert (s = length cs) by (apply I, boundary_after_or, B). subst s.
  assert (EE : at_the_end inside (length cs) ge).
  { split; [rewrite W; apply (lw_pos _ _ _ _ L); rewrite app_length; cbn; lia|]. split; [rewrite Q; assumption|rewrite R; assumption]. }
  destruct (grapheme_range ops (cs ++ [c]) pos inside L (length cs) (text_n cs c) e He ge fuel EE Hf (length cs) 0 g0 ltac:(lia) G0)
    as (ps & RG & F2).
  rewrite (text_sub cs c) in F2.
  assert (LEN : length ps = length (seg cs)) by (eapply Forall2_len; eassumption).
  unfold filter_graphemes, filter. apply (filter_loop_spec _ _ _ _ ps _ _ _ _ _ _ _ RG).
  { rewrite LEN. pose proof (seg_length cs). lia. }
  exists (map cnt (seg cs)). split; [|split; [lia|apply sums_fit; assumption]].
  assert (H' : forall p g out, delimits (cs ++ [c]) pos (length cs) p g -> In g (seg cs) -> form p out = Ok (cnt g, out ++ f g)) by exact H.
  revert H' F2. generalize (seg cs). clear. intros gs H F2. revert out. induction F2 as [|p g ps gs D _ IH]; intros out.
  - cbn. rewrite app_nil_r. constructor.
  - cbn [map flat_map]. rewrite app_assoc. econstructor; [apply H; [assumption|left; reflexivity]|].
    apply IH. intros. apply H; [assumption|right; assumption].
Qed.

Lemma decompose_ok dec full p g fuel : (forall c out, dec c out = Ok (zlen (full c), out ++ full c)) ->
  delimits (cs ++ [c]) pos (length cs) p g -> (length cs < fuel)%nat -> zlen (flat_map full g) <= int_max ->
  decompose_grapheme fuel ops dec p = Ok (zlen (flat_map full g), flat_map full g).
Proof.
  intros H D Hf Hm. unfold decompose_grapheme.
  exact (codepoint_filter_ok ops _ pos inside L (length cs) (text_n cs c) e dec full p g [] fuel H D Hf Hm).
Qed.
End Normalize.
