(** * Proofs: graphemes of UTF-8 and UTF-32 texts *)
From Verif Require Import Prelude DataTables PropsModel Utf8Model TextModel Utf8Spec UnicodeSpec GraphemeSpec
  PropsProofs Utf8Proofs LawfulProofs SequenceProofs IterProofs GraphemeProofs Uax29Proofs TextSpec.
Require Import ZifyBool ZifyNat.

Section Lawful.
Context (ops : cp_ops) (all : list Z) (pos : nat -> Z) (inside : nat -> Z -> Prop).
Context (L : lawful ops all pos inside).
Context (n : nat) (Hn : (n < length all)%nat).
Context (e : Z) (He : inside n e).
Notation is_end := (is_end all n).
Notation on := (on all pos n e).

Lemma advance_ok fuel : (n <= fuel)%nat -> forall k i g, on g i -> (k <= length (seg (sub all i n)))%nat ->
  exists g', advance fuel ops k g = Ok g' /\ on g' (i + length (concat (firstn k (seg (sub all i n))))).
Proof.
  intros Hf. induction k as [|k IH]; intros i g G Hk.
  - exists g. split; [reflexivity|]. cbn [firstn concat length]. rewrite Nat.add_0_r. assumption.
  - pose proof G as (W & E & Hi & A & B).
    destruct (Nat.eq_dec i n) as [->|Hne]; [rewrite sub_nil in Hk; cbn in Hk; lia|].
    destruct (A ltac:(lia)) as (j & J & Ej). pose proof J as ((J1 & J2) & _).
    rewrite (seg_step all n Hn (j - i) i j eq_refl J) in *. cbn [length] in Hk.
    destruct (gi_inc_ok ops all pos inside L n Hn e He g i j fuel G J ltac:(nlia)) as (g' & Eg & G').
    cbn [advance]. rewrite Eg. cbn [bind].
    destruct (IH j g' G' ltac:(lia)) as (g2 & E2 & G2). exists g2. split; [assumption|].
    cbn [firstn concat]. rewrite app_length, sub_length by lia.
    replace (i + (j - i + length (concat (firstn k (seg (sub all j n))))))%nat
      with (j + length (concat (firstn k (seg (sub all j n)))))%nat by lia. assumption.
Qed.

(** The grapheme number [k] starts at [length (concat (firstn k gs))] and ends where the
    next one starts. *)
Lemma seg_is_end cs before g after : cs = sub all 0 n -> seg cs = before ++ g :: after ->
  let s := length (concat before) in
  is_end s (s + length g)%nat /\ (s = 0%nat \/ brk_at all s = true).
Proof.
  intros Ec Eg. cbv zeta. pose proof (seg_segments cs) as (EC & NE & I & B).
  assert (LEN : length cs = n) by (rewrite Ec, sub_length; lia).
  assert (NG : g <> []) by (intros ->; apply NE; rewrite Eg; apply in_or_app; right; left; reflexivity).
  assert (EQ : cs = concat before ++ g ++ concat after)
    by (rewrite <- EC, Eg, concat_app; reflexivity).
  assert (NTH : forall k, (k < n)%nat -> nth k all 0 = nth k cs 0).
  { intros k Hk. rewrite Ec. apply nth_error_nth.
    pose proof (nth_error_sub all 0 n k ltac:(lia)) as Q. cbn [Nat.add] in Q. rewrite <- Q.
    apply nth_error_nth'. rewrite sub_length; lia. }
  assert (BR : forall l a b r, cs = l ++ a :: b :: r -> brk_at all (S (length l)) = brk a b).
  { intros l a b r E. unfold brk_at. assert (LL : (S (length l) < n)%nat) by (rewrite <- LEN, E, app_length; cbn; lia).
    rewrite !NTH by lia. rewrite E. replace (S (length l) - 1)%nat with (length l) by lia.
    rewrite app_nth2, Nat.sub_diag by lia. rewrite app_nth2 by lia.
    replace (S (length l) - length l)%nat with 1%nat by lia. reflexivity. }
  assert (LG : (length (concat before) + length g + length (concat after) = n)%nat)
    by (rewrite <- LEN, EQ, !app_length; lia).
  assert (LG0 : (0 < length g)%nat) by (destruct g; [contradiction|cbn; lia]).
  assert (START : forall bf b r af, seg cs = bf ++ (b :: r) :: af -> bf <> [] ->
            brk_at all (length (concat bf)) = true).
  { intros bf b r af E Hb. pose proof (B bf b r af E Hb) as R.
    assert (NB : concat bf <> []).
    { destruct bf as [|x bf]; [contradiction|]. intros Q. apply NE. rewrite E.
      destruct x; [left; reflexivity|discriminate]. }
    destruct (snoc_cases _ NB) as (l & a & El). rewrite El in R. apply pairwise_boundary_snoc in R.
    rewrite El, app_length. cbn [length]. rewrite Nat.add_1_r. rewrite (BR l a b (r ++ concat af)); [assumption|].
    rewrite <- EC, E, concat_app, El. cbn [concat]. rewrite <- !app_assoc. reflexivity. }
  split.
  - split; [lia|]. split.
    + intros k Hk.
      set (m := (k - length (concat before))%nat).
      assert (Em : g = firstn m g ++ skipn m g) by (symmetry; apply firstn_skipn).
      destruct (skipn m g) as [|b r] eqn:Es.
      { apply (f_equal (@length Z)) in Es. rewrite skipn_length in Es. cbn in Es. unfold m in Es. lia. }
      assert (Lm : length (firstn m g) = m) by (rewrite firstn_length; unfold m; lia).
      assert (NF : firstn m g <> []) by (intros Q; rewrite Q in Lm; cbn in Lm; unfold m in Lm; lia).
      destruct (snoc_cases _ NF) as (l & a & El).
      assert (Bf : brk a b = false).
      { apply (seg_inside cs g l a b r); [rewrite Eg; apply in_or_app; right; left; reflexivity|].
        rewrite Em, El, <- app_assoc. reflexivity. }
      rewrite <- Bf. replace k with (S (length (concat before ++ l))).
      * apply (BR _ a b (r ++ concat after)). rewrite EQ, Em, El. rewrite <- !app_assoc. reflexivity.
      * rewrite app_length. rewrite El, app_length in Lm. cbn in Lm. unfold m in Lm. lia.
    + destruct after as [|h after]; [left; cbn in LG; lia|]. right.
      destruct h as [|b r]; [exfalso; apply NE; rewrite Eg; apply in_or_app; right; right; left; reflexivity|].
      pose proof (START (before ++ [g]) b r after) as S. rewrite concat_app, app_length in S. cbn [concat] in S.
      rewrite app_nil_r in S. apply S; [rewrite Eg, <- app_assoc; reflexivity|]. destruct before; discriminate.
  - destruct before as [|x before]; [left; reflexivity|]. right.
    destruct g as [|b r]; [contradiction|]. eapply START; [exact Eg|discriminate].
Qed.

(** Constructing at codepoint [i] of the grapheme [s, j). *)
Definition start_found (s i : nat) : Prop :=
  i = s \/ ((s = 0%nat \/ rev_brk_at all s = true) /\ forall k, (s < k < i)%nat -> rev_brk_at all k = false).
Lemma is_start_found s i j s' : is_end s j -> (s = 0%nat \/ brk_at all s = true) -> (s <= i < j)%nat ->
  is_start all i s' -> (s' = s <-> start_found s i).
Proof.
  intros J B Hi S. unfold is_start in S. unfold start_found.
  destruct (Nat.eqb_spec i 0) as [I0|I0].
  { subst. split; [intros _; left; lia|intros; lia]. }
  destruct (brk_at all i) eqn:Bi.
  - subst s'. assert (i = s).
    { destruct (Nat.eq_dec i s) as [|Hne]; [assumption|]. destruct J as (_ & J & _). rewrite (J i) in Bi by lia. discriminate. }
    split; [intros _; left; assumption|auto].
  - assert (i <> s) by (intros ->; destruct B; congruence).
    destruct S as (S1 & S2 & S3). split.
    + intros ->. right. split; assumption.
    + intros [X|(X & Y)]; [contradiction|].
      destruct (Nat.lt_trichotomy s' s) as [Q|[Q|Q]]; [|assumption|].
      * rewrite (S3 s) in X by lia. destruct X as [X|X]; [lia|discriminate].
      * rewrite (Y s') in S2 by lia. destruct S2 as [S2|S2]; [lia|discriminate].
Qed.
Lemma make3_ok b s i j fuel : b = pos 0 -> is_end s j -> (s = 0%nat \/ brk_at all s = true) -> (s <= i < j)%nat ->
  (n < fuel)%nat ->
  exists g s', gi_make3 fuel ops b e (pos i) = Ok g /\ g_eog g = pos j /\ g_where g = pos s' /\ (s' <= i)%nat /\
    (s' = s <-> start_found s i).
Proof.
  intros Eb J B Hi Hf. pose proof J as ((J1 & J2) & _).
  assert (H0 : inside 0 b) by (rewrite Eb; apply (lw_pos _ _ _ _ L); lia).
  assert (Hpi : inside i (pos i)) by (apply (lw_pos _ _ _ _ L); lia).
  destruct (find_start_ok ops all pos inside L n Hn b i (pos i) fuel H0 Eb ltac:(lia) Hpi
              ltac:(intros ->; reflexivity) ltac:(lia)) as (s' & S & E1).
  destruct (find_end_ok ops all pos inside L n Hn e He i (pos i) fuel ltac:(lia) Hpi ltac:(lia)) as (j' & J' & E2).
  assert (j' = j).
  { apply (is_end_unique all n Hn i); [assumption|]. apply (is_end_inner all n Hn s i j); assumption. }
  subst j'. unfold gi_make3. rewrite E1, E2. cbn [bind]. eexists. exists s'. split; [reflexivity|]. cbn [g_eog g_where].
  split; [reflexivity|]. split; [reflexivity|]. split.
  - unfold is_start in S. destruct (Nat.eqb_spec i 0); [lia|]. destruct (brk_at all i); [lia|]. destruct S; lia.
  - apply (is_start_found s i j s'); assumption.
Qed.

(** Copying the codepoints of a grapheme range as chars *)
Lemma as_chars_ok : forall m i j p q fuel out, (j - i = m)%nat -> (i <= j < length all)%nat -> inside i p -> inside j q ->
  (m < fuel)%nat ->
  utf8_append_codepoints_as_chars fuel ops p q out = Ok (out ++ map to_u8 (sub all i j)).
Proof.
  induction m as [|m IH]; intros i j p q fuel out Hm Hij Hp Hq Hf;
    (destruct fuel as [|fuel]; [lia|]); cbn [utf8_append_codepoints_as_chars];
    rewrite (op_neq_lawful _ _ _ _ i j p q L) by (assumption || lia); cbn [bind].
  - replace j with i by lia. rewrite Nat.eqb_refl, sub_nil. cbn. rewrite app_nil_r. reflexivity.
  - destruct (Nat.eqb_spec i j); [lia|]. cbn [negb].
    destruct (nth_lt_some all i ltac:(lia)) as [c E].
    rewrite (lw_deref _ _ _ _ L i p c E Hp). cbn [bind].
    rewrite (lw_inc _ _ _ _ L i (pos i)) by (try lia; apply (lw_pos _ _ _ _ L); lia). cbn [bind].
    rewrite (IH (S i) j (pos (S i)) q fuel) by (try assumption; try lia; apply (lw_pos _ _ _ _ L); lia).
    rewrite (sub_cons all i j c) by (assumption || lia). cbn [map]. rewrite <- app_assoc. reflexivity.
Qed.

(** Equality of the iterators number [a] and [b] *)
Lemma starts_inj cs a b : cs = sub all 0 n -> (a < b <= length (seg cs))%nat ->
  (length (concat (firstn a (seg cs))) < length (concat (firstn b (seg cs))))%nat.
Proof.
  intros Ec H. assert (NE := seg_nonempty cs).
  assert (Q : firstn b (seg cs) = firstn a (seg cs) ++ firstn (b - a) (skipn a (seg cs))).
  { rewrite <- (firstn_skipn a (firstn b (seg cs))), firstn_firstn, Nat.min_l by lia. f_equal.
    rewrite skipn_firstn_comm. reflexivity. }
  rewrite Q, concat_app, app_length.
  destruct (skipn a (seg cs)) as [|g t] eqn:Es.
  { apply (f_equal (@length (list Z))) in Es. rewrite skipn_length in Es. cbn in Es. lia. }
  assert (Ig : In g (seg cs)) by (rewrite <- (firstn_skipn a (seg cs)), Es; apply in_or_app; right; left; reflexivity).
  rewrite Forall_forall in NE. specialize (NE g Ig). replace (b - a)%nat with (S (b - a - 1)) by lia.
  cbn [firstn concat]. rewrite app_length. destruct g; [contradiction|cbn; lia].
Qed.
Lemma starts_le cs a : cs = sub all 0 n -> (length (concat (firstn a (seg cs))) <= n)%nat.
Proof.
  intros Ec. assert (LEN : length cs = n) by (rewrite Ec, sub_length; lia).
  assert (Q : length (concat (seg cs)) = n) by (rewrite seg_concat; assumption).
  rewrite <- (firstn_skipn a (seg cs)) in Q. rewrite concat_app, app_length in Q. lia.
Qed.
Lemma starts_end cs a : cs = sub all 0 n -> (a <= length (seg cs))%nat ->
  (length (concat (firstn a (seg cs))) = n <-> a = length (seg cs)).
Proof.
  intros Ec Ha. assert (LEN : length cs = n) by (rewrite Ec, sub_length; lia).
  assert (FULL : length (concat (firstn (length (seg cs)) (seg cs))) = n)
    by (rewrite firstn_all, seg_concat; assumption).
  split; [|intros ->; assumption].
  intros Q. destruct (Nat.eq_dec a (length (seg cs))) as [|Hne]; [assumption|].
  pose proof (starts_inj cs a (length (seg cs)) Ec ltac:(lia)). lia.
Qed.
Lemma is_end_next cs a : cs = sub all 0 n -> (a < length (seg cs))%nat ->
  is_end (length (concat (firstn a (seg cs)))) (length (concat (firstn (S a) (seg cs)))).
Proof.
  intros Ec Ha. destruct (nth_lt_some (seg cs) a Ha) as [g Eg].
  pose proof (nth_split_at _ _ _ Eg) as Q.
  destruct (seg_is_end cs (firstn a (seg cs)) g (skipn (S a) (seg cs)) Ec Q) as [J _].
  rewrite (firstn_S_nth _ _ _ Eg), concat_app, app_length. cbn [concat]. rewrite app_nil_r. assumption.
Qed.
(** Extent of the iterator number [a] (the end when [a] is the number of graphemes). *)
Lemma on_extent cs a g : cs = sub all 0 n -> (a <= length (seg cs))%nat ->
  on g (length (concat (firstn a (seg cs)))) ->
  at_ inside n g (length (concat (firstn a (seg cs)))) (length (concat (firstn (S a) (seg cs)))).
Proof.
  intros Ec Ha G. destruct (on_at ops all pos inside L n Hn e He g _ G) as (j & A & J1 & J2).
  assert (j = length (concat (firstn (S a) (seg cs)))); [|subst j; assumption].
  destruct (Nat.eq_dec a (length (seg cs))) as [->|Hne].
  - rewrite (firstn_all2 (n := S (length (seg cs)))) by lia.
    assert (TOP := proj2 (starts_end cs (length (seg cs)) Ec (le_n _)) eq_refl).
    rewrite (J2 TOP). rewrite firstn_all in TOP. symmetry. exact TOP.
  - pose proof (is_end_next cs a Ec ltac:(lia)) as J. pose proof J as ((? & ?) & _).
    apply (is_end_unique all n Hn (length (concat (firstn a (seg cs))))); [|assumption]. apply J1. lia.
Qed.
Lemma iter_eq_ok cs a b ga gb fuel : cs = sub all 0 n -> (a <= length (seg cs))%nat -> (b <= length (seg cs))%nat ->
  on ga (length (concat (firstn a (seg cs)))) -> on gb (length (concat (firstn b (seg cs)))) -> (2 * n < fuel)%nat ->
  gi_eq fuel ops ga gb = Ok (a =? b)%nat.
Proof.
  intros Ec Ha Hb Ga Gb Hf.
  pose proof (on_extent cs a ga Ec Ha Ga) as Aa. pose proof (on_extent cs b gb Ec Hb Gb) as Ab.
  pose proof (at_le _ _ _ _ _ Aa) as La. pose proof (at_le _ _ _ _ _ Ab) as Lb.
  destruct (gi_eq_ok ops all pos inside L n Hn _ _ _ _ _ _ fuel Aa Ab ltac:(lia)) as (r & -> & R).
  f_equal. set (ss := fun k => length (concat (firstn k (seg cs)))) in *.
  change (length (concat (firstn a (seg cs)))) with (ss a) in *. change (length (concat (firstn b (seg cs)))) with (ss b) in *.
  change (length (concat (firstn (S a) (seg cs)))) with (ss (S a)) in *.
  change (length (concat (firstn (S b) (seg cs)))) with (ss (S b)) in *.
  assert (INJ : forall x y, (x < y <= length (seg cs))%nat -> (ss x < ss y)%nat) by (intros; apply starts_inj; assumption).
  assert (MONO : forall x y, (x <= y <= length (seg cs))%nat -> (ss x <= ss y)%nat).
  { intros x y H. destruct (Nat.eq_dec x y) as [->|]; [lia|]. specialize (INJ x y ltac:(lia)). lia. }
  assert (TOP : ss (length (seg cs)) = n) by (apply (starts_end cs _ Ec); [lia|reflexivity]).
  destruct (Nat.eqb_spec a b) as [->|Hne].
  - apply R. destruct (Nat.eq_dec b (length (seg cs))) as [E|E].
    + left. rewrite E, TOP. split; [reflexivity|left; reflexivity].
    + right. exists (ss b). pose proof (INJ b (S b) ltac:(lia)). split; [lia|left; reflexivity].
  - destruct r; [exfalso|reflexivity]. destruct (proj1 R eq_refl) as [(E1 & E2)|(k & K1 & K2)].
    + assert (a = length (seg cs)) by (apply (starts_end cs a Ec Ha); assumption).
      assert (b < length (seg cs))%nat by lia. pose proof (INJ b (length (seg cs)) ltac:(lia)). lia.
    + destruct (Nat.lt_ge_cases a b) as [H|H].
      * pose proof (MONO (S a) b ltac:(lia)). lia.
      * assert (Hlt : (b < a)%nat) by lia. pose proof (MONO (S b) a ltac:(lia)).
        pose proof (INJ b (S b) ltac:(lia)). lia.
Qed.
Lemma iter_eq_cp_ok cs a g i p fuel : cs = sub all 0 n -> (a <= length (seg cs))%nat -> (i <= n)%nat -> inside i p ->
  on g (length (concat (firstn a (seg cs)))) -> (n < fuel)%nat ->
  exists r, gi_eq_cp fuel ops g p = Ok r /\
    (r = true <-> (length (concat (firstn a (seg cs))) <= i < length (concat (firstn (S a) (seg cs))))%nat \/
                  (a = length (seg cs) /\ i = n)).
Proof.
  intros Ec Ha Hi Hp G Hf. pose proof (on_extent cs a g Ec Ha G) as A. pose proof (at_le _ _ _ _ _ A) as Le.
  eexists. split; [eapply (gi_eq_cp_ok ops all pos inside L n Hn); [exact A|exact Hi|exact Hp|lia]|].
  destruct (Nat.eq_dec a (length (seg cs))) as [E|E].
  - assert (Q := proj2 (starts_end cs a Ec Ha) E). rewrite Q in *. lia.
  - pose proof (starts_inj cs a (S a) Ec ltac:(lia)). lia.
Qed.
(** The loop against an end iterator that stands on [s, n) with [s < n]. *)
Lemma iterate_stop ge s fuel0 : at_ inside n ge s n -> (s < n)%nat -> (2 * n < fuel0)%nat ->
  forall m i g fuel, (n - i <= m)%nat -> on g i -> (i <= s)%nat -> (m < fuel)%nat ->
  exists k, iterate_graphemes fuel0 fuel ops g ge = Ok (firstn k (seg (sub all i n))) /\
    (i + length (concat (firstn k (seg (sub all i n)))) <= s <
     i + length (concat (firstn (S k) (seg (sub all i n)))))%nat.
Proof.
  intros E Hs Hf0. induction m as [|m IH]; intros i g fuel Hm G His Hf; (destruct fuel as [|fuel]; [nlia|]); [nlia|].
  cbn [iterate_graphemes]. pose proof G as (W & En & Hi & A & B).
  destruct (A ltac:(nlia)) as (j & J & Ej). pose proof J as ((J1 & J2) & _).
  destruct (on_at ops all pos inside L n Hn e He g i G) as (j' & A' & Q & _).
  assert (j' = j) by (apply (is_end_unique all n Hn i); [apply Q; nlia|assumption]). subst j'.
  unfold gi_neq. destruct (gi_eq_ok ops all pos inside L n Hn _ _ _ _ _ _ fuel0 A' E ltac:(nlia)) as (r & -> & R).
  cbn [bind]. rewrite (seg_step all n Hn (j - i) i j eq_refl J).
  destruct r; cbn [negb].
  - exists 0%nat. split; [reflexivity|]. cbn [firstn concat length]. rewrite app_length, sub_length by nlia.
    cbn [length]. destruct (proj1 R eq_refl) as [X|(k & K1 & K2)]; [nlia|]. split; [nlia|]. nlia.
  - assert (Hjs : (j <= s)%nat).
    { destruct (Nat.le_gt_cases j s) as [|H]; [assumption|]. exfalso. assert (false = true); [|discriminate].
      apply R. right. exists s. split; [nlia|left; reflexivity]. }
    unfold gi_deref. rewrite W, Ej.
    rewrite (iterate_for_lawful _ _ _ _ L (j - i) i j);
      [|nlia|nlia|apply (lw_pos _ _ _ _ L); nlia|apply (lw_pos _ _ _ _ L); nlia|nlia].
    cbn [bind]. destruct (gi_step_ok ops all pos inside L n Hn e He g i j fuel0 G J ltac:(nlia)) as (g' & -> & G'). cbn [bind].
    destruct (IH j g' fuel ltac:(nlia) G' Hjs ltac:(nlia)) as (k & -> & K). cbn [bind].
    exists (S k). split; [reflexivity|]. rewrite !firstn_cons. cbn [concat]. rewrite !app_length, sub_length by nlia.
    nlia.
Qed.
End Lawful.

Lemma gcb_of_nul : gcb_of 0 = G_CONTROL.
Proof. vm_compute. reflexivity. Qed.
Lemma brk_nul a : brk a 0 = true.
Proof. unfold brk. rewrite gcb_of_nul. destruct (gcb_of a); reflexivity. Qed.
Lemma brk_at_last cs c : cs <> [] -> brk_at (cs ++ [c]) (length cs) = brk (last cs 0) c.
Proof.
  intros NE. unfold brk_at. destruct (snoc_cases cs NE) as (l & a & ->). rewrite last_last.
  rewrite app_nth1 by (rewrite app_length; cbn; lia). rewrite app_length. cbn [length].
  replace (length l + 1 - 1)%nat with (length l) by lia. rewrite app_nth2, Nat.sub_diag by lia.
  rewrite app_nth2 by (rewrite app_length; cbn; lia). rewrite app_length. cbn [length].
  rewrite Nat.sub_diag. reflexivity.
Qed.
(** A text [cs] followed in memory by the codepoint [c], in either encoding. *)
Record text_in (ops : cp_ops) (b e : Z) (cs : list Z) (c : Z) (pos : nat -> Z) (inside : nat -> Z -> Prop) : Prop := {
  ti_lawful : lawful ops (cs ++ [c]) pos inside;
  ti_begin : b = pos 0%nat;
  ti_end : e = pos (length cs);
}.
Lemma utf8_view_text before cs c after : Forall codepoint31 cs -> codepoint31 c ->
  text_in (utf8_ops (before ++ utf8_text cs ++ utf8_encode c ++ after)) (zlen before)
          (zlen before + zlen (utf8_text cs)) cs c (upos (zlen before) (cs ++ [c])) (uinside (zlen before) (cs ++ [c])).
Proof.
  intros H Hc. constructor; [apply view_buffer_lawful; assumption|rewrite upos_0; reflexivity|rewrite upos_end; reflexivity].
Qed.
Lemma utf8_string_text cs : Forall codepoint31 cs ->
  text_in (utf8_ops (string_buffer (utf8_text cs))) 0 (zlen (utf8_text cs)) cs 0
          (upos 0 (cs ++ [0])) (uinside 0 (cs ++ [0])).
Proof.
  intros H. constructor; [apply string_buffer_lawful; assumption|rewrite upos_0; reflexivity|rewrite upos_end; reflexivity].
Qed.
Lemma utf32_view_text before cs c after :
  text_in (utf32_ops (before ++ cs ++ c :: after)) (zlen before) (zlen before + zlen cs) cs c
          (fun i => zlen before + Z.of_nat i) (fun i p => p = zlen before + Z.of_nat i).
Proof.
  constructor; [|lia|unfold zlen; lia].
  replace (cs ++ c :: after) with ((cs ++ [c]) ++ after) by (rewrite <- app_assoc; reflexivity).
  apply utf32_lawful.
Qed.
Lemma utf32_string_text cs :
  text_in (utf32_ops (string_buffer cs)) 0 (zlen cs) cs 0 (fun i => 0 + Z.of_nat i) (fun i p => p = 0 + Z.of_nat i).
Proof. exact (utf32_view_text [] cs 0 []). Qed.

Section Text.
Context (ops : cp_ops) (b e : Z) (cs : list Z) (c : Z) (pos : nat -> Z) (inside : nat -> Z -> Prop).
Context (T : text_in ops b e cs c pos inside).
Let L := ti_lawful _ _ _ _ _ _ _ T.
Let all := cs ++ [c].
Let n := length cs.
Lemma text_n : (n < length all)%nat.
Proof. unfold n, all. rewrite app_length. cbn. lia. Qed.
Lemma text_e : inside n e.
Proof. rewrite (ti_end _ _ _ _ _ _ _ T). apply (lw_pos _ _ _ _ L), text_n. Qed.
Lemma text_sub : sub all 0 n = cs.
Proof. apply sub_whole. Qed.
Lemma text_e0 : n = 0%nat -> e = pos 0%nat.
Proof. intros N. rewrite (ti_end _ _ _ _ _ _ _ T). fold n. rewrite N. reflexivity. Qed.

Lemma text_graphemes fuel : (cs = [] \/ brk (last cs 0) c = true) -> (n < fuel)%nat ->
  graphemes fuel ops b e = Ok (seg cs).
Proof.
  intros B Hf. rewrite <- text_sub at 1.
  apply (graphemes_ok ops all pos inside L n text_n e text_e b fuel); [apply T|exact text_e0| |assumption].
  destruct B as [->|B]; [left; reflexivity|].
  destruct cs as [|x t] eqn:E; [left; reflexivity|]. right. unfold n, all. rewrite brk_at_last by discriminate. exact B.
Qed.
Lemma text_grapheme_end fuel : (n < fuel)%nat ->
  exists s g, grapheme_end fuel ops b e = Ok g /\ g_where g = pos s /\ (s <= n)%nat /\ g_eog g = e /\ g_end g = e /\
    (s = n <-> cs = [] \/ brk (last cs 0) c = true).
Proof.
  intros Hf. destruct (grapheme_end_ok ops all pos inside L n text_n e text_e b fuel) as (s & g & E & S & W & Q & R);
    [apply T|exact text_e0|assumption|].
  exists s, g. split; [assumption|]. split; [assumption|].
  unfold is_start in S. destruct (Nat.eqb_spec n 0) as [N|N].
  - assert (cs = []) by (destruct cs; [reflexivity|discriminate]). repeat split; try assumption; try lia; auto.
  - assert (NC : cs <> []) by (intros Q0; apply N; unfold n; rewrite Q0; reflexivity).
    unfold all, n in S. rewrite brk_at_last in S by assumption. fold all n in S.
    destruct (brk (last cs 0) c) eqn:Bk.
    + subst s. repeat split; try assumption; try lia; auto.
    + destruct S as (S1 & _). repeat split; try assumption; try lia; intros [X|X]; first [contradiction|discriminate].
Qed.
Lemma text_begin fuel : (n <= fuel)%nat ->
  exists g, grapheme_begin fuel ops b e = Ok g /\ on all pos n e g 0.
Proof. intros Hf. apply (grapheme_begin_ok ops all pos inside L n text_n e text_e b fuel); [apply T|assumption]. Qed.
Lemma text_iter fuel k : (n <= fuel)%nat -> (k <= length (seg cs))%nat ->
  exists g0 g, grapheme_begin fuel ops b e = Ok g0 /\ advance fuel ops k g0 = Ok g /\
    on all pos n e g (length (concat (firstn k (seg cs)))).
Proof.
  intros Hf Hk. destruct (text_begin fuel Hf) as (g0 & E0 & G0).
  destruct (advance_ok ops all pos inside L n text_n e text_e fuel Hf k 0 g0 G0) as (g & E & G);
    [rewrite text_sub; assumption|].
  rewrite text_sub in G. exists g0, g. auto.
Qed.
Lemma text_eq fuel a k ga gk : (2 * n < fuel)%nat -> (a <= length (seg cs))%nat -> (k <= length (seg cs))%nat ->
  on all pos n e ga (length (concat (firstn a (seg cs)))) -> on all pos n e gk (length (concat (firstn k (seg cs)))) ->
  gi_eq fuel ops ga gk = Ok (a =? k)%nat.
Proof.
  intros. apply (iter_eq_ok ops all pos inside L n text_n e text_e cs); try assumption. symmetry. apply text_sub.
Qed.
Lemma text_eq_cp fuel a g i p : (n < fuel)%nat -> (a <= length (seg cs))%nat -> (i <= n)%nat -> inside i p ->
  on all pos n e g (length (concat (firstn a (seg cs)))) ->
  exists r, gi_eq_cp fuel ops g p = Ok r /\
    (r = true <-> (length (concat (firstn a (seg cs))) <= i < length (concat (firstn (S a) (seg cs))))%nat \/
                  (a = length (seg cs) /\ i = n)).
Proof.
  intros. apply (iter_eq_cp_ok ops all pos inside L n text_n e text_e cs); try assumption. symmetry. apply text_sub.
Qed.
Lemma text_make3 fuel before g after i : seg cs = before ++ g :: after ->
  (length (concat before) <= i < length (concat before) + length g)%nat -> (n < fuel)%nat ->
  exists it s', gi_make3 fuel ops b e (pos i) = Ok it /\ g_eog it = pos (length (concat before) + length g)%nat /\
    g_where it = pos s' /\ (s' <= i)%nat /\ (s' = length (concat before) <-> start_found all (length (concat before)) i).
Proof.
  intros E Hi Hf. destruct (seg_is_end all n text_n e cs before g after (eq_sym text_sub) E) as [J B].
  apply (make3_ok ops all pos inside L n text_n e text_e b _ _ _ fuel); try assumption. apply T.
Qed.
Lemma text_loop_stop fuel : cs <> [] -> brk (last cs 0) c = false -> (2 * n < fuel)%nat ->
  exists s k ge, grapheme_end fuel ops b e = Ok ge /\ g_where ge = pos s /\ (s < n)%nat /\
    graphemes fuel ops b e = Ok (firstn k (seg cs)) /\
    (length (concat (firstn k (seg cs))) <= s < length (concat (firstn (S k) (seg cs))))%nat.
Proof.
  intros NC Bk Hf. destruct (text_grapheme_end fuel ltac:(lia)) as (s & ge & E & W & S & Q & R & I).
  assert (s <> n) by (intros X; apply I in X; destruct X as [X|X]; [contradiction|congruence]).
  destruct (text_begin fuel ltac:(lia)) as (g0 & E0 & G0).
  destruct (iterate_stop ops all pos inside L n text_n e text_e ge s fuel) with (m := n) (i := 0%nat) (g := g0) (fuel := fuel)
    as (k & K1 & K2); try assumption; try lia.
  { pose proof text_n. constructor; [rewrite W; apply (lw_pos _ _ _ _ L); fold all; lia|rewrite Q; apply text_e|rewrite R; apply text_e|lia]. }
  rewrite text_sub in K1, K2. exists s, k, ge. split; [assumption|]. split; [assumption|]. split; [lia|].
  split; [|exact K2]. unfold graphemes. rewrite E0. cbn [bind]. rewrite E. cbn [bind]. exact K1.
Qed.
(** Copying from the grapheme number [a] to the grapheme number [k] *)
Lemma text_as_chars fuel a k ga gk out : (n < fuel)%nat -> (a <= k <= length (seg cs))%nat ->
  on all pos n e ga (length (concat (firstn a (seg cs)))) -> on all pos n e gk (length (concat (firstn k (seg cs)))) ->
  utf8_append_codepoints_as_chars fuel ops (g_where ga) (g_where gk) out
  = Ok (out ++ map to_u8 (concat (firstn (k - a) (skipn a (seg cs))))).
Proof.
  intros Hf Hak (Wa & _ & La & _) (Wk & _ & Lk & _). rewrite Wa, Wk. pose proof text_n.
  assert (Q : firstn k (seg cs) = firstn a (seg cs) ++ firstn (k - a) (skipn a (seg cs))).
  { rewrite <- (firstn_skipn a (firstn k (seg cs))), firstn_firstn, Nat.min_l by lia. f_equal.
    rewrite skipn_firstn_comm. reflexivity. }
  assert (QL := f_equal (fun x => length (concat x)) Q). cbn beta in QL. rewrite concat_app, app_length in QL.
  rewrite (as_chars_ok ops all pos inside L n text_n (length (concat (firstn k (seg cs))) - length (concat (firstn a (seg cs))))
             (length (concat (firstn a (seg cs)))) (length (concat (firstn k (seg cs)))));
    [|reflexivity|lia|apply (lw_pos _ _ _ _ L); fold all; lia|apply (lw_pos _ _ _ _ L); fold all; lia|lia].
  do 3 f_equal. rewrite QL.
  set (A := concat (firstn a (seg cs))) in *. set (B := concat (firstn (k - a) (skipn a (seg cs)))) in *.
  assert (EC : cs = A ++ B ++ concat (skipn k (seg cs))).
  { unfold A, B. rewrite app_assoc, <- concat_app, <- Q, <- concat_app, firstn_skipn. symmetry. apply seg_concat. }
  unfold all. rewrite EC. clearbody A B. unfold sub.
  replace (length A + length B - length A)%nat with (length B) by lia.
  rewrite <- app_assoc, skipn_app, skipn_all2, Nat.sub_diag by lia. cbn [app skipn].
  rewrite <- app_assoc, firstn_app, firstn_all, Nat.sub_diag by lia. apply app_nil_r.
Qed.
End Text.

Lemma exact_size_end before cs fuel : cs <> [] -> (0 < fuel)%nat ->
  grapheme_end fuel (utf32_ops (before ++ cs)) (zlen before) (zlen before + zlen cs) = UB OobRead.
Proof.
  intros NE Hf. destruct (snoc_cases cs NE) as (l & a & ->). destruct fuel as [|fuel]; [lia|].
  unfold grapheme_end, gi_make3, find_start_of_grapheme. cbn [utf32_ops op_eq bind find_start_loop op_dec op_deref].
  assert (ZL : zlen (l ++ [a]) = zlen l + 1) by (unfold zlen; rewrite app_length; cbn; lia).
  rewrite ZL. assert (0 <= zlen l) by (unfold zlen; lia). assert (0 <= zlen before) by (unfold zlen; lia).
  destruct (Z.eqb_spec (zlen before + (zlen l + 1)) (zlen before)); [lia|].
  assert (P : padd (before ++ l ++ [a]) (zlen before + (zlen l + 1)) (-1) = Ok (zlen before + zlen l)).
  { unfold padd. unfold zlen at 5. rewrite !app_length. cbn [length]. unfold zlen in *.
    destruct (Z.leb_spec 0 (Z.of_nat (length before) + (Z.of_nat (length l) + 1) + -1)); [|lia].
    destruct (Z.leb_spec (Z.of_nat (length before) + (Z.of_nat (length l) + 1) + -1) (Z.of_nat (length before + (length l + 1)))); [|lia].
    cbn [andb]. f_equal. lia. }
  rewrite P. cbn [bind].
  assert (Rd : rd (before ++ l ++ [a]) (zlen before + zlen l) = Ok a).
  { unfold rd. destruct (Z.ltb_spec (zlen before + zlen l) 0); [lia|].
    replace (Z.to_nat (zlen before + zlen l)) with (length (before ++ l)) by (unfold zlen; rewrite app_length; lia).
    rewrite app_assoc, nth_error_app2, Nat.sub_diag by lia. reflexivity. }
  rewrite Rd. cbn [bind find_start_loop]. unfold op_eq, op_deref.
  destruct (Z.eqb_spec (zlen before + (zlen l + 1)) (zlen before)); [lia|].
  assert (Ru : rd (before ++ l ++ [a]) (zlen before + (zlen l + 1)) = UB OobRead).
  { unfold rd. destruct (Z.ltb_spec (zlen before + (zlen l + 1)) 0); [lia|].
    rewrite (proj2 (nth_error_None _ _)); [reflexivity|]. rewrite !app_length. cbn [length]. unfold zlen. lia. }
  rewrite Ru. reflexivity.
Qed.

Lemma utf32_slice cs a b : (a <= b <= length cs)%nat ->
  copy_range (string_buffer cs) (0 + Z.of_nat a) (0 + Z.of_nat b) = Ok (sub cs a b).
Proof.
  intros H. unfold copy_range, string_buffer, slice.
  destruct (Z.leb_spec 0 (0 + Z.of_nat a)); [|lia]. destruct (Z.leb_spec (0 + Z.of_nat a) (0 + Z.of_nat b)); [|lia].
  destruct (Z.leb_spec (0 + Z.of_nat b) (zlen (cs ++ [0]))) as [|X]; [|unfold zlen in X; rewrite app_length in X; lia].
  cbn [andb]. f_equal. unfold sub. replace (Z.to_nat (0 + Z.of_nat b - (0 + Z.of_nat a))) with (b - a)%nat by lia.
  replace (Z.to_nat (0 + Z.of_nat a)) with a by lia.
  rewrite skipn_app, firstn_app, skipn_length. replace (b - a - (length cs - a))%nat with 0%nat by lia.
  cbn [firstn]. apply app_nil_r.
Qed.
Lemma seg_range cs a b : (a <= b)%nat ->
  sub cs (length (concat (firstn a (seg cs)))) (length (concat (firstn b (seg cs)))) =
  concat (firstn (b - a) (skipn a (seg cs))).
Proof.
  intros H.
  assert (Q : firstn b (seg cs) = firstn a (seg cs) ++ firstn (b - a) (skipn a (seg cs))).
  { rewrite <- (firstn_skipn a (firstn b (seg cs))), firstn_firstn, Nat.min_l by lia. f_equal.
    rewrite skipn_firstn_comm. reflexivity. }
  assert (QL := f_equal (fun x => length (concat x)) Q). cbn beta in QL. rewrite concat_app, app_length in QL.
  rewrite QL. set (A := concat (firstn a (seg cs))) in *. set (B := concat (firstn (b - a) (skipn a (seg cs)))) in *.
  assert (EC : cs = A ++ B ++ concat (skipn b (seg cs))).
  { unfold A, B. rewrite app_assoc, <- concat_app, <- Q, <- concat_app, firstn_skipn. symmetry. apply seg_concat. }
  rewrite EC. clearbody A B. unfold sub. replace (length A + length B - length A)%nat with (length B) by lia.
  rewrite skipn_app, skipn_all2, Nat.sub_diag by lia. cbn [app skipn].
  rewrite firstn_app, firstn_all, Nat.sub_diag by lia. apply app_nil_r.
Qed.
Lemma map_u8_ascii l : Forall codepoint31 l -> (map to_u8 l = utf8_text l <-> Forall (fun c => c < 128) l).
Proof.
  induction 1 as [|c l Hc F IH]; [split; constructor|]. cbn [map utf8_text flat_map]. fold (utf8_text l).
  unfold codepoint31 in Hc. split.
  - intros E. assert (c < 128).
    { destruct (Z.lt_ge_cases c 128) as [|G]; [assumption|]. exfalso.
      pose proof (f_equal (@length Z) E) as LE. cbn [length] in LE. rewrite map_length, app_length in LE.
      assert (1 < length (utf8_encode c))%nat.
      { unfold utf8_encode. repeat match goal with |- context [c <? ?k] => destruct (Z.ltb_spec c k) end; cbn [length]; lia. }
      assert (M : forall x, Forall codepoint31 x -> (length x <= length (utf8_text x))%nat).
      { induction 1 as [|d x Hd _ IHx]; [cbn; lia|]. cbn [utf8_text flat_map]. fold (utf8_text x). rewrite app_length.
        destruct (utf8_encode_chunk d Hd) as (ld & t & -> & _). cbn [length]. lia. }
      specialize (M l F). lia. }
    constructor; [assumption|]. apply IH. revert E. unfold utf8_encode. destruct (Z.ltb_spec c 128); [|lia].
    cbn [app]. intros E. injection E as _ E. exact E.
  - intros G. inversion G; subst. rewrite (proj2 IH) by assumption. unfold utf8_encode, to_u8.
    destruct (Z.ltb_spec c 128); [|lia]. cbn [app]. rewrite Z.mod_small by lia. reflexivity.
Qed.

(** ** Views and strings in either encoding *)
Lemma view_text ops b e cs c pos : view_in_memory ops b e cs c pos ->
  exists pos' inside, text_in ops b e cs c pos' inside /\ forall i, (i <= length cs)%nat -> pos' i = pos i.
Proof.
  intros [before cs' c' after F Hc | before os o after F Ho | before cs' c' after].
  - eexists _, _. split; [apply utf8_view_text; assumption|]. intros i Hi. unfold upos.
    rewrite firstn_app. replace (i - length cs')%nat with 0%nat by lia. cbn [firstn]. rewrite app_nil_r. reflexivity.
  - eexists _, _. split; [constructor; [apply seq_view_lawful; assumption|rewrite spos_0; reflexivity|rewrite map_length, spos_end; reflexivity]|].
    intros i Hi. rewrite map_length in Hi. apply spos_firstn. assumption.
  - eexists _, _. split; [apply utf32_view_text|]. reflexivity.
Qed.
Lemma string_text ops b e cs pos : string_in_memory ops b e cs pos ->
  exists pos' inside, text_in ops b e cs 0 pos' inside /\ forall i, (i <= length cs)%nat -> pos' i = pos i.
Proof.
  intros [cs' F | os F | cs'].
  - eexists _, _. split; [apply utf8_string_text; assumption|]. intros i Hi. unfold upos.
    rewrite firstn_app. replace (i - length cs')%nat with 0%nat by lia. cbn [firstn]. rewrite app_nil_r. reflexivity.
  - eexists _, _. split; [constructor; [apply seq_string_lawful; assumption|rewrite spos_0; reflexivity|rewrite map_length, spos_end; reflexivity]|].
    intros i Hi. rewrite map_length in Hi. apply spos_firstn. assumption.
  - eexists _, _. split; [apply utf32_string_text|]. reflexivity.
Qed.
Lemma lawful_inj ops all pos inside : lawful ops all pos inside ->
  forall i j, (i < length all)%nat -> (j < length all)%nat -> pos i = pos j -> i = j.
Proof.
  intros L i j Hi Hj E. pose proof (lw_pos _ _ _ _ L i Hi) as Pi. pose proof (lw_pos _ _ _ _ L j Hj) as Pj.
  rewrite <- E in Pj. pose proof (lw_eq _ _ _ _ L i j _ _ Hi Hj Pi Pj) as Q1.
  pose proof (lw_eq _ _ _ _ L i i _ _ Hi Hi Pi Pi) as Q2. rewrite Q1, Nat.eqb_refl in Q2. injection Q2 as Q2.
  apply Nat.eqb_eq. assumption.
Qed.
Lemma boundary_after cs c : cs <> [] -> (pairwise_boundary cs c <-> brk (last cs 0) c = true).
Proof. intros NE. destruct (snoc_cases cs NE) as (l & a & ->). rewrite last_last. apply pairwise_boundary_snoc. Qed.
Lemma boundary_after_or cs c : (cs = [] \/ pairwise_boundary cs c) <-> (cs = [] \/ brk (last cs 0) c = true).
Proof.
  destruct cs as [|x t]; [split; left; reflexivity|]. rewrite boundary_after by discriminate. reflexivity.
Qed.
Lemma boundary_nul cs : cs = [] \/ pairwise_boundary cs 0.
Proof. apply boundary_after_or. destruct cs; [left; reflexivity|right; apply brk_nul]. Qed.
Lemma seg_eq cs gs : segments pairwise_boundary cs gs -> gs = seg cs.
Proof. intros S. apply (segments_unique _ _ _ _ S). apply seg_segments. Qed.

Section Final.
Context (ops : cp_ops) (b e : Z) (cs : list Z) (c : Z) (pos pos' : nat -> Z) (inside : nat -> Z -> Prop).
Context (T : text_in ops b e cs c pos' inside) (P : forall i, (i <= length cs)%nat -> pos' i = pos i).
Let L := ti_lawful _ _ _ _ _ _ _ T.
Lemma final_inj i j : (i <= length cs)%nat -> (j <= length cs)%nat -> pos' i = pos' j -> i = j.
Proof. intros. apply (lawful_inj _ _ _ _ L); try assumption; rewrite app_length; cbn; lia. Qed.
Lemma final_end : e = pos' (length cs).
Proof. apply T. Qed.
Lemma final_end_on fuel : (cs = [] \/ pairwise_boundary cs c) -> (length cs < fuel)%nat ->
  exists g, grapheme_end fuel ops b e = Ok g /\ on (cs ++ [c]) pos' (length cs) e g (length (concat (firstn (length (seg cs)) (seg cs)))).
Proof.
  intros B Hf. apply boundary_after_or in B.
  destruct (text_grapheme_end ops b e cs c pos' inside T fuel Hf) as (s & g & E & W & S & Q & R & I).
  exists g. split; [assumption|]. rewrite firstn_all, seg_concat. apply I in B. subst s.
  split; [assumption|]. split; [assumption|]. split; [lia|]. split; [lia|]. intros _. rewrite Q. apply final_end.
Qed.
Lemma final_nth fuel k : (length cs <= fuel)%nat -> (k <= length (seg cs))%nat ->
  exists g, nth_grapheme fuel ops b e k = Ok g /\ on (cs ++ [c]) pos' (length cs) e g (length (concat (firstn k (seg cs)))).
Proof.
  intros Hf Hk. destruct (text_iter ops b e cs c pos' inside T fuel k Hf Hk) as (g0 & g & E0 & E & G).
  exists g. split; [|assumption]. unfold nth_grapheme. rewrite E0. exact E.
Qed.
Lemma final_at_position before g after i fuel : segments pairwise_boundary cs (before ++ g :: after) ->
  (length (concat before) <= i < length (concat before) + length g)%nat -> (length cs < fuel)%nat ->
  exists it, gi_make3 fuel ops b e (pos i) = Ok it /\
    snd (gi_deref it) = pos (length (concat before) + length g)%nat /\
    (fst (gi_deref it) = pos (length (concat before)) <->
     i = length (concat before) \/
     ((length (concat before) = 0%nat \/
       pairwise_boundary [nth (S (length (concat before))) cs 0] (nth (length (concat before)) cs 0)) /\
      forall k, (length (concat before) < k < i)%nat -> ~ pairwise_boundary [nth (S k) cs 0] (nth k cs 0))).
Proof.
  intros S Hi Hf. pose proof (seg_eq _ _ S) as Eg. symmetry in Eg.
  assert (LEN : (length (concat before) + length g <= length cs)%nat).
  { destruct S as (E & _). rewrite <- E, concat_app, app_length. cbn [concat]. rewrite app_length. lia. }
  destruct (text_make3 ops b e cs c pos' inside T fuel before g after i Eg Hi Hf) as (it & s' & E & Q & W & Hs & I).
  exists it. rewrite P in E by lia. split; [assumption|]. unfold gi_deref. cbn [fst snd].
  split; [rewrite Q; apply P; lia|]. rewrite W, <- P by lia.
  assert (Q1 : pos' s' = pos' (length (concat before)) <-> s' = length (concat before)).
  { split; [apply final_inj; lia|congruence]. }
  rewrite Q1, I. unfold start_found, rev_brk_at.
  assert (NTH : forall k, (k < length cs)%nat -> nth k (cs ++ [c]) 0 = nth k cs 0) by (intros; apply app_nth1; assumption).
  assert (PB : forall k, pairwise_boundary [nth (Datatypes.S k) cs 0] (nth k cs 0) <-> brk (nth (Datatypes.S k) cs 0) (nth k cs 0) = true).
  { intros k. apply (pairwise_boundary_snoc []). }
  split.
  - intros [X|(X & Y)]; [left; exact X|]. destruct (Nat.eq_dec i (length (concat before))) as [|Hne]; [left; assumption|].
    right. split.
    + destruct X as [X|X]; [left; exact X|right]. apply PB. rewrite !NTH in X by lia. exact X.
    + intros k Hk B. apply PB in B. specialize (Y k Hk). rewrite !NTH in Y by lia. congruence.
  - intros [X|(X & Y)]; [left; exact X|]. destruct (Nat.eq_dec i (length (concat before))) as [|Hne]; [left; assumption|].
    right. split.
    + destruct X as [X|X]; [left; exact X|right]. apply PB in X. rewrite !NTH by lia. exact X.
    + intros k Hk. rewrite !NTH by lia. specialize (Y k Hk). rewrite PB in Y. destruct (brk _ _); [contradiction Y; reflexivity|reflexivity].
Qed.
Lemma final_view_end fuel : (length cs < fuel)%nat ->
  exists it, grapheme_end fuel ops b e = Ok it /\ snd (gi_deref it) = e /\
    (fst (gi_deref it) = e <-> cs = [] \/ pairwise_boundary cs c).
Proof.
  intros Hf. destruct (text_grapheme_end ops b e cs c pos' inside T fuel Hf) as (s & g & E & W & S & Q & R & I).
  exists g. split; [assumption|]. split; [assumption|]. unfold gi_deref. cbn [fst]. rewrite boundary_after_or, <- I, W, final_end.
  split; [apply final_inj; lia|congruence].
Qed.
Lemma final_view_loop fuel gs : (2 * length cs < fuel)%nat -> segments pairwise_boundary cs gs ->
  exists gs' rest, graphemes fuel ops b e = Ok gs' /\ gs = gs' ++ rest /\
    (rest = [] <-> cs = [] \/ pairwise_boundary cs c).
Proof.
  intros Hf S. apply seg_eq in S. subst gs.
  cut (exists gs' rest, graphemes fuel ops b e = Ok gs' /\ seg cs = gs' ++ rest /\
    (rest = [] <-> cs = [] \/ brk (last cs 0) c = true)).
  { intros (gs' & rest & H1 & H2 & H3). exists gs', rest. rewrite boundary_after_or. auto. }
  assert (D : cs = [] \/ cs <> []) by (destruct cs; [left; reflexivity|right; discriminate]).
  destruct D as [D|D].
  { exists (seg cs), []. rewrite (text_graphemes ops b e cs c pos' inside T fuel) by (try (left; assumption); lia).
    rewrite app_nil_r. repeat split; auto. }
  destruct (brk (last cs 0) c) eqn:B.
  - exists (seg cs), []. rewrite (text_graphemes ops b e cs c pos' inside T fuel) by (try (right; assumption); lia).
    rewrite app_nil_r. repeat split; auto.
  - destruct (text_loop_stop ops b e cs c pos' inside T fuel D B Hf) as (s & k & ge & _ & _ & Hs & E & K).
    exists (firstn k (seg cs)), (skipn k (seg cs)). rewrite firstn_skipn. split; [assumption|]. split; [reflexivity|].
    split; [|intros [X|X]; [contradiction|discriminate]]. intros Q. exfalso.
    pose proof (firstn_skipn k (seg cs)) as F. rewrite Q, app_nil_r in F. rewrite F, seg_concat in K. lia.
Qed.
End Final.
