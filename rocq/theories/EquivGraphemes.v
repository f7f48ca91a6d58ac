(** * Proofs: canonically equivalent texts have equivalent graphemes *)
From Coq Require Import Permutation Sorted Relations.
From Verif Require Import Prelude DataTables UcdTables PropsModel Utf8Model TextModel Utf8Spec UnicodeSpec GraphemeSpec TextSpec NormSpec
  PropsProofs DecompTables DecompProofs GraphemeProofs Uax29Proofs GraphemeText OrderProofs ComposeProofs NormData NormProofs NfcProofs NormText
  TextsProofs LocalMarks NormForms RangeTree KeepGraphemes.
Require Import ZifyBool ZifyNat.
Local Notation full := full_canonical.
Local Notation ceq := canonically_equivalent.

(** ** Classes of mappings *)
Definition entry_classes (r : Z * dtag * list Z) : bool :=
  match r with
  | (c, Canonical, m) =>
      let v := fast_gcb c in
      match m with
      | h :: t => if mk v then forallb (fun x => mk (fast_gcb x)) (h :: t) else other v && other (fast_gcb h) && forallb (fun x => mk (fast_gcb x)) t
      | [] => false
      end
  | _ => true
  end.
Lemma entries_classes : forallb entry_classes ucd_decomposition = true.
Proof. vm_compute. reflexivity. Qed.
Lemma listed_classes c m : listed_canonical c m -> exists h t, m = h :: t /\ Forall (fun x => mk (gcb_of x) = true) t /\
  ((mk (gcb_of c) = true /\ mk (gcb_of h) = true) \/ (gcb_of c = G_OTHER /\ gcb_of h = G_OTHER)).
Proof.
  intros H. pose proof entries_classes as Q. rewrite forallb_forall in Q. specialize (Q _ H). cbn [entry_classes] in Q.
  destruct m as [|h t]; [discriminate|]. exists h, t. split; [reflexivity|]. rewrite !fast_gcb_eq in Q.
  assert (FA : forall l, forallb (fun x => mk (fast_gcb x)) l = true -> Forall (fun x => mk (gcb_of x) = true) l).
  { intros l X. apply (proj2 (Forall_forall _ l)). intros x I. rewrite forallb_forall in X. specialize (X x I). rewrite fast_gcb_eq in X. exact X. }
  destruct (mk (gcb_of c)).
  - apply FA in Q. inversion Q; subst. auto.
  - apply andb_prop in Q. destruct Q as [Q Q3]. apply andb_prop in Q. destruct Q as [Q1 Q2]. split; [apply FA; exact Q3|]. right.
    split; [destruct (gcb_of c); cbn in Q1; congruence|destruct (gcb_of h); cbn in Q2; congruence].
Qed.
Definition upto (n : nat) : list Z := map Z.of_nat (seq 0 n).
Lemma in_upto n i : 0 <= i < Z.of_nat n -> In i (upto n).
Proof. intros H. apply in_map_iff. exists (Z.to_nat i). split; [lia|]. apply in_seq. lia. Qed.
Lemma l_classes : forallb (fun i => gcb_eqb (fast_gcb (LBase + i)) G_L) (upto 19) = true.
Proof. vm_compute. reflexivity. Qed.
Lemma v_classes : forallb (fun i => gcb_eqb (fast_gcb (VBase + i)) G_V) (upto 21) = true.
Proof. vm_compute. reflexivity. Qed.
Lemma t_classes : forallb (fun i => (i =? 0) || gcb_eqb (fast_gcb (TBase + i)) G_T) (upto 28) = true.
Proof. vm_compute. reflexivity. Qed.
(** The syllables, in blocks of 28. *)
Lemma syllable_blocks : forallb (fun k => forallb (fun i => gcb_eqb (fast_gcb (SBase + (k * 28 + i))) (if i =? 0 then G_LV else G_LVT)) (upto 28)) (upto 399) = true.
Proof. vm_compute. reflexivity. Qed.
Lemma eqb_class a b : gcb_eqb a b = true -> a = b.
Proof. destruct a, b; cbn; congruence. Qed.
Lemma syllable_class i : 0 <= i < 11172 -> gcb_of (SBase + i) = if i mod 28 =? 0 then G_LV else G_LVT.
Proof.
  intros H. pose proof syllable_blocks as Q. rewrite forallb_forall in Q.
  assert (K : 0 <= i / 28 < Z.of_nat 399) by (split; [apply Z.div_pos; lia|apply Z.div_lt_upper_bound; lia]).
  assert (M : 0 <= i mod 28 < Z.of_nat 28) by (apply Z.mod_pos_bound; lia).
  specialize (Q (i / 28) (in_upto 399 _ K)). rewrite forallb_forall in Q. specialize (Q (i mod 28) (in_upto 28 _ M)). cbv beta in Q.
  rewrite fast_gcb_eq in Q. apply eqb_class in Q. rewrite <- Q. f_equal. f_equal. rewrite Z.mul_comm. apply Z.div_mod. lia.
Qed.
Lemma hangul_classes c m : hangul_mapping c m -> exists h t, m = [h; t] /\
  ((gcb_of c = G_LV /\ gcb_of h = G_L /\ gcb_of t = G_V) \/ (gcb_of c = G_LVT /\ gcb_of h = G_LV /\ gcb_of t = G_T)).
Proof.
  intros (S & M). unfold hangul_syllable in S. cbv zeta in M. set (s := c - SBase) in *.
  assert (B : 0 <= s < 11172) by (unfold s; change (SBase + 11172) with (SBase + 11172) in *; unfold SBase in *; lia).
  pose proof l_classes as JL. pose proof v_classes as JV. pose proof t_classes as JT. rewrite forallb_forall in JL, JV, JT.
  pose proof syllable_class as SC.
  assert (EC : gcb_of c = if s mod 28 =? 0 then G_LV else G_LVT) by (rewrite <- SC by exact B; f_equal; unfold s; lia).
  pose proof (Z.mod_pos_bound s 28 ltac:(lia)) as M28. pose proof (Z.mod_pos_bound s 588 ltac:(lia)) as M588.
  destruct (Z.eqb_spec (s mod 28) 0) as [Z|Z].
  - eexists _, _. split; [exact M|]. left. split; [exact EC|]. split.
    + assert (R : 0 <= s / 588 < 19) by (split; [apply Z.div_pos; lia|apply Z.div_lt_upper_bound; lia]).
      specialize (JL (s / 588) (in_upto 19 _ R)). rewrite fast_gcb_eq in JL. apply eqb_class. exact JL.
    + assert (R : 0 <= (s mod 588) / 28 < 21) by (split; [apply Z.div_pos; lia|apply Z.div_lt_upper_bound; lia]).
      specialize (JV ((s mod 588) / 28) (in_upto 21 _ R)). rewrite fast_gcb_eq in JV. apply eqb_class. exact JV.
  - eexists _, _. split; [exact M|]. right. split; [exact EC|]. split.
    + assert (D : s / 28 * 28 <= s) by (pose proof (Z.mul_div_le s 28 ltac:(lia)); lia).
      assert (D0 : 0 <= s / 28) by (apply Z.div_pos; lia).
      rewrite SC by lia. rewrite Z.mod_mul by lia. reflexivity.
    + specialize (JT (s mod 28) (in_upto 28 _ M28)). apply orb_prop in JT. destruct JT as [JT|JT]; [lia|].
      rewrite fast_gcb_eq in JT. apply eqb_class. exact JT.
Qed.

(** ** Replacing a part of a text *)
Definition nobrk (a b : Z) : Prop := brk a b = false.
Lemma seg_group l : l <> [] -> adj nobrk l -> forall b y,
  seg (l ++ b :: y) = if brk (last l 0) b then l :: seg (b :: y) else match seg (b :: y) with g :: gs => (l ++ g) :: gs | [] => [l] end.
Proof.
  induction l as [|a [|c t] IH]; intros NE A b y; [contradiction| |].
  - cbn [app last]. rewrite seg_cons2. destruct (brk a b); [reflexivity|]. destruct (seg_cons b y) as (g & gs & ->). reflexivity.
  - apply adj_cons in A. destruct A as (A & A'). change ((a :: c :: t) ++ b :: y) with (a :: c :: (t ++ b :: y)). rewrite seg_cons2.
    unfold nobrk in A. rewrite A. change (c :: (t ++ b :: y)) with ((c :: t) ++ b :: y). rewrite (IH ltac:(discriminate) A' b y).
    change (last (a :: c :: t) 0) with (last (c :: t) 0). destruct (brk (last (c :: t) 0) b); [reflexivity|].
    destruct (seg_cons b y) as (g & gs & ->). reflexivity.
Qed.
Lemma ceq_refl l : ceq l l.
Proof. apply rst_refl. Qed.
Lemma ceq_all gs : Forall2 ceq gs gs.
Proof. induction gs; constructor; [apply ceq_refl|assumption]. Qed.
Lemma ceq_cons a l l' : ceq l l' -> ceq (a :: l) (a :: l').
Proof. intros H. pose proof (equiv_app [a] [] l l' H) as Q. rewrite !app_nil_r in Q. exact Q. Qed.
Lemma seg_subst x l l' y : l <> [] -> l' <> [] -> adj nobrk l -> adj nobrk l' ->
  (forall p a, x = p ++ [a] -> brk a (hd 0 l) = brk a (hd 0 l')) ->
  (forall b q, y = b :: q -> brk (last l 0) b = brk (last l' 0) b) ->
  ceq l l' -> Forall2 ceq (seg (x ++ l ++ y)) (seg (x ++ l' ++ y)).
Proof.
  intros NE NE' A A' X Y E. induction x as [|a x IH]; cbn [app].
  - destruct y as [|b q].
    + rewrite !app_nil_r, (seg_one l NE A), (seg_one l' NE' A'). constructor; [exact E|constructor].
    + rewrite (seg_group l NE A), (seg_group l' NE' A'), <- (Y b q eq_refl). destruct (brk (last l 0) b); [constructor; [exact E|apply ceq_all]|].
      destruct (seg_cons b q) as (g & gs & ->). constructor; [|apply ceq_all]. exact (equiv_app [] (b :: g) l l' E).
  - assert (IH' : Forall2 ceq (seg (x ++ l ++ y)) (seg (x ++ l' ++ y))).
    { apply IH. intros p c ->. apply (X (a :: p) c). reflexivity. }
    clear IH.
    assert (H : exists b r b' r', x ++ l ++ y = b :: r /\ x ++ l' ++ y = b' :: r' /\ brk a b = brk a b').
    { destruct x as [|c x].
      - destruct l as [|b r]; [contradiction|]. destruct l' as [|b' r']; [contradiction|]. eexists b, _, b', _. split; [reflexivity|]. split; [reflexivity|].
        exact (X [] a eq_refl).
      - eexists c, _, c, _. split; [reflexivity|]. split; reflexivity. }
    destruct H as (b & r & b' & r' & E1 & E2 & B). rewrite E1, E2 in *. rewrite !seg_cons2, <- B.
    destruct (brk a b); [constructor; [apply ceq_refl|exact IH']|].
    destruct (seg_cons b r) as (u & v & W). destruct (seg_cons b' r') as (u' & v' & W'). rewrite W, W' in IH' |- *.
    inversion IH'; subst. constructor; [apply ceq_cons; assumption|assumption].
Qed.

(** ** Before an emoji modifier no mark, also after decomposition *)
Definition um (a b : Z) : Prop := gcb_of b = G_E_MODIFIER -> Forall (fun x => mk (gcb_of x) = false) (full a).
Lemma um_not_mk a : Forall (fun x => mk (gcb_of x) = false) (full a) -> mk (gcb_of a) = false.
Proof.
  intros F. destruct (full_canonical_classes a) as [X|[(X & F')|(X & _)]].
  - rewrite X in F. inversion F; assumption.
  - exfalso. pose proof (last_in _ (full_canonical_ne a)) as L.
    pose proof (proj1 (Forall_forall _ _) F _ L) as P. pose proof (proj1 (Forall_forall _ _) F' _ L) as Q. cbv beta in P, Q. congruence.
  - rewrite X. reflexivity.
Qed.
Lemma adj_app P l r : adj P (l ++ r) <-> adj P l /\ adj P r /\ (l <> [] -> r <> [] -> P (last l 0) (hd 0 r)).
Proof.
  induction l as [|a [|b l] IH].
  - cbn [app]. split; [intros H; split; [exact I|split; [exact H|intros N; contradiction]]|intros (_ & H & _); exact H].
  - cbn [app last]. destruct r as [|c r]; [split; [intros _; split; [exact I|split; [exact I|intros _ N; contradiction]]|intros; exact I]|].
    rewrite adj_cons. cbn [hd]. split; [intros (X & Y); split; [exact I|split; [exact Y|intros; exact X]]|]. intros (_ & Y & X). split; [apply X; discriminate|exact Y].
  - change ((a :: b :: l) ++ r) with (a :: b :: (l ++ r)). rewrite adj_cons. change (b :: l ++ r) with ((b :: l) ++ r). rewrite IH, adj_cons.
    change (last (a :: b :: l) 0) with (last (b :: l) 0). split.
    + intros (X & Y & Z & W). split; [split; assumption|]. split; [exact Z|]. intros _ N. apply W; [discriminate|exact N].
    + intros ((X & Y) & Z & W). split; [exact X|]. split; [exact Y|]. split; [exact Z|]. intros _ N. apply W; [discriminate|exact N].
Qed.
Lemma full_listed c m : listed_canonical c m -> full c = flat_map full m.
Proof.
  intros H. symmetry. apply full_canonical_unique. apply (expands_map _ c m); [exact H|]. apply canonical_listed. reflexivity.
Qed.
Lemma last_hd_app (l : list Z) a : last (l ++ [a]) 0 = a.
Proof. apply last_last. Qed.

(** What a replacement has to keep. *)
Lemma um_subst x l l' y : l <> [] -> l' <> [] -> adj um l -> adj um l' -> gcb_of (hd 0 l) <> G_E_MODIFIER -> gcb_of (hd 0 l') <> G_E_MODIFIER ->
  (Forall (fun x => mk (gcb_of x) = false) (full (last l 0)) <-> Forall (fun x => mk (gcb_of x) = false) (full (last l' 0))) ->
  (adj um (x ++ l ++ y) <-> adj um (x ++ l' ++ y)).
Proof.
  intros NE NE' A A' H H' L.
  assert (Q : forall l l', l <> [] -> l' <> [] -> adj um l' -> gcb_of (hd 0 l') <> G_E_MODIFIER ->
    (Forall (fun x => mk (gcb_of x) = false) (full (last l 0)) -> Forall (fun x => mk (gcb_of x) = false) (full (last l' 0))) ->
    adj um (x ++ l ++ y) -> adj um (x ++ l' ++ y)).
  { clear. intros l l' NE NE' A' H' L. rewrite !adj_app. intros (X & (_ & Y & W) & _). split; [exact X|]. split.
    - split; [exact A'|]. split; [exact Y|]. intros _ NY. unfold um in *. intros V. apply L. exact (W NE NY V).
    - intros _ _. destruct l' as [|b r]; [contradiction|]. cbn [app hd] in *. intros V. contradiction. }
  split; apply Q; try assumption; apply L.
Qed.
Lemma mk_class_break a b b' : mk (gcb_of b) = true -> mk (gcb_of b') = true -> brk a b = brk a b'.
Proof.
  unfold brk. generalize (gcb_of a) (gcb_of b) (gcb_of b'). intros va vb vb' M M'.
  destruct vb; cbn in M; try discriminate M; destruct vb'; cbn in M'; try discriminate M'; destruct va; reflexivity.
Qed.
Lemma soft_class_break a a' b : softv (gcb_of a) = true -> softv (gcb_of a') = true -> gcb_of b <> G_E_MODIFIER -> brk a b = brk a' b.
Proof.
  unfold brk. generalize (gcb_of a) (gcb_of a') (gcb_of b). intros va va' vb M M' N.
  destruct va; cbn in M; try discriminate M; destruct va'; cbn in M'; try discriminate M'; destruct vb; try reflexivity; contradiction.
Qed.
Lemma mk_soft v : mk v = true -> softv v = true.
Proof. unfold softv. intros ->. apply orb_true_r. Qed.
Lemma adj_mk (P : Z -> Z -> Prop) h t : (forall a b, mk (gcb_of b) = true -> nc a -> P a b) -> nc h -> Forall (fun x => mk (gcb_of x) = true) t -> adj P (h :: t).
Proof.
  intros H N F. revert h N. induction F as [|b t B F IH]; intros h N; [exact I|]. apply adj_cons. split; [apply H; assumption|]. apply IH. apply mk_nc. exact B.
Qed.
Lemma um_mk a b : mk (gcb_of b) = true -> nc a -> um a b.
Proof. intros M _ V. rewrite V in M. discriminate M. Qed.
Lemma nobrk_mk a b : mk (gcb_of b) = true -> nc a -> nobrk a b.
Proof. intros M N. destruct (nb_join a b N (or_introl M)) as (X & _). exact X. Qed.
Definition same_graphemes (cs cs' : list Z) : Prop := (adj um cs <-> adj um cs') /\ (adj um cs -> Forall2 ceq (seg cs) (seg cs')).
Lemma exchange_same l l' : exchange l l' -> same_graphemes l l'.
Proof.
  intros X. pose proof X as ST. destruct X as [x a b y i j Ha Hb Hij]. apply has_ccc_eq in Ha, Hb.
  assert (Ma : mk (gcb_of a) = true) by (apply mark_mk; lia). assert (Mb : mk (gcb_of b) = true) by (apply mark_mk; lia).
  assert (NE : forall c, mk (gcb_of c) = true -> ~ Forall (fun x => mk (gcb_of x) = false) (full c)).
  { intros c M F. apply um_not_mk in F. congruence. }
  assert (U : adj um (x ++ [a; b] ++ y) <-> adj um (x ++ [b; a] ++ y)).
  { apply um_subst; [discriminate|discriminate| | | | |].
    - apply (adj_mk um); [apply um_mk|apply mk_nc; exact Ma|repeat constructor; exact Mb].
    - apply (adj_mk um); [apply um_mk|apply mk_nc; exact Mb|repeat constructor; exact Ma].
    - cbn [hd]. intros V. rewrite V in Ma. discriminate Ma.
    - cbn [hd]. intros V. rewrite V in Mb. discriminate Mb.
    - cbn [last]. split; intros F; exfalso; [apply (NE b)|apply (NE a)]; assumption. }
  split; [exact U|]. intros A. apply (seg_subst x [a; b] [b; a] y); [discriminate|discriminate| | | | |].
  - apply (adj_mk nobrk); [apply nobrk_mk|apply mk_nc; exact Ma|repeat constructor; exact Mb].
  - apply (adj_mk nobrk); [apply nobrk_mk|apply mk_nc; exact Mb|repeat constructor; exact Ma].
  - intros p c _. cbn [hd]. apply mk_class_break; assumption.
  - intros c q ->. cbn [last]. apply soft_class_break; [apply mk_soft; exact Mb|apply mk_soft; exact Ma|].
    intros V. change (x ++ a :: b :: c :: q) with (x ++ [a] ++ b :: c :: q) in A. rewrite app_assoc in A. rewrite adj_iff in A.
    apply (NE b Mb). exact (A _ b c q eq_refl V).
  - apply rst_step. apply eq_exchange. exact (exch [] a b [] i j (proj2 (has_ccc_eq a i) Ha) (proj2 (has_ccc_eq b j) Hb) Hij).
Qed.
Lemma listed_same x c m y : listed_canonical c m -> same_graphemes (x ++ [c] ++ y) (x ++ m ++ y).
Proof.
  intros LC. destruct (listed_classes c m LC) as (h & t & -> & T & K). pose proof (full_listed c _ LC) as FL.
  assert (Nh : nc h) by (destruct K as [(_ & K)|(_ & K)]; [apply mk_nc|apply other_nc]; exact K).
  assert (LM : Forall (fun x => mk (gcb_of x) = false) (full c) <-> Forall (fun x => mk (gcb_of x) = false) (full (last (h :: t) 0))).
  { destruct t as [|z t].
    - cbn [last]. cbn [flat_map] in FL. rewrite app_nil_r in FL. rewrite FL. reflexivity.
    - assert (Lz : mk (gcb_of (last (h :: z :: t) 0)) = true).
      { change (last (h :: z :: t) 0) with (last (z :: t) 0). exact (proj1 (Forall_forall _ _) T _ (last_in (z :: t) ltac:(discriminate))). }
      split; intros F; exfalso.
      + rewrite FL in F. apply (proj1 (Forall_forall _ _)) with (x := hd 0 (full z)) in F.
        * assert (Hz : mk (gcb_of z) = true) by (inversion T; assumption).
          pose proof (full_canonical_ne z) as NEz. destruct (full_canonical_classes z) as [E|[(_ & E)|(E & _)]].
          -- rewrite E in F. cbn [hd] in F. congruence.
          -- destruct (full z) as [|w r]; [contradiction|]. cbn [hd] in F. inversion E; subst. congruence.
          -- rewrite E in Hz. discriminate.
        * cbn [flat_map]. apply in_or_app. right. apply in_or_app. left. pose proof (full_canonical_ne z) as NEz. destruct (full z); [contradiction|left; reflexivity].
      + apply um_not_mk in F. congruence. }
  assert (Hc : gcb_of c <> G_E_MODIFIER) by (destruct K as [(K & _)|(K & _)]; intros V; rewrite V in K; discriminate K).
  assert (Hh : gcb_of h <> G_E_MODIFIER) by (destruct K as [(_ & K)|(_ & K)]; intros V; rewrite V in K; discriminate K).
  assert (U : adj um (x ++ [c] ++ y) <-> adj um (x ++ (h :: t) ++ y)).
  { apply um_subst; [discriminate|discriminate|exact I|apply (adj_mk um); [apply um_mk|exact Nh|exact T]|exact Hc|exact Hh|exact LM]. }
  split; [exact U|]. intros A. apply seg_subst; [discriminate|discriminate| | | | |].
  - exact I.
  - apply (adj_mk nobrk); [apply nobrk_mk|exact Nh|exact T].
  - intros p a _. cbn [hd]. destruct K as [(K1 & K2)|(K1 & K2)]; [apply mk_class_break; assumption|]. unfold brk. rewrite K1, K2. reflexivity.
  - intros b q ->. change (last [c] 0) with c.
    assert (Sc : softv (gcb_of c) = true) by (destruct K as [(K & _)|(K & _)]; rewrite ?K; [apply mk_soft; exact K|reflexivity]).
    assert (Sl : softv (gcb_of (last (h :: t) 0)) = true).
    { destruct t as [|z t]; [cbn [last]; destruct K as [(_ & K)|(_ & K)]; rewrite ?K; [apply mk_soft; exact K|reflexivity]|].
      change (last (h :: z :: t) 0) with (last (z :: t) 0). apply mk_soft. exact (proj1 (Forall_forall _ _) T _ (last_in (z :: t) ltac:(discriminate))). }
    destruct (gcb_eqb (gcb_of b) G_E_MODIFIER) eqn:V; [|apply soft_class_break; [exact Sc|exact Sl|intros X; rewrite X in V; discriminate]].
    apply eqb_class in V. rewrite adj_iff in A. pose proof (A x c b q eq_refl V) as F. unfold brk. f_equal.
    pose proof (um_not_mk _ F) as Mc. pose proof (um_not_mk _ (proj1 LM F)) as Ml. unfold softv in Sc, Sl. rewrite Mc in Sc. rewrite Ml in Sl.
    destruct (gcb_of c); cbn in Sc; try discriminate Sc. destruct (gcb_of (last (h :: t) 0)); cbn in Sl; try discriminate Sl. reflexivity.
  - apply rst_step. pose proof (eq_map [] c (h :: t) [] (or_introl LC)) as Q. cbn [app] in Q. rewrite app_nil_r in Q. exact Q.
Qed.
Lemma hangul_same x c m y : hangul_mapping c m -> same_graphemes (x ++ [c] ++ y) (x ++ m ++ y).
Proof.
  intros HM. destruct (hangul_classes c m HM) as (h & t & -> & K).
  assert (PL : forall z, gcb_of z = G_LV \/ gcb_of z = G_LVT \/ gcb_of z = G_V \/ gcb_of z = G_T -> full z = [z]).
  { intros z Z. destruct (full_canonical_classes z) as [E|[(E & _)|(E & _)]]; [exact E| |]; exfalso; destruct Z as [Z|[Z|[Z|Z]]]; rewrite Z in E; discriminate. }
  assert (LM : Forall (fun x => mk (gcb_of x) = false) (full c) <-> Forall (fun x => mk (gcb_of x) = false) (full t)).
  { rewrite (PL c), (PL t) by (destruct K as [(K1 & K2 & K3)|(K1 & K2 & K3)]; auto).
    split; intros _; (constructor; [|constructor]); destruct K as [(K1 & K2 & K3)|(K1 & K2 & K3)]; rewrite ?K1, ?K3; reflexivity. }
  assert (U : adj um (x ++ [c] ++ y) <-> adj um (x ++ [h; t] ++ y)).
  { apply um_subst; [discriminate|discriminate|exact I| | | |exact LM].
    - apply adj_cons. split; [|exact I]. intros V. destruct K as [(K1 & K2 & K3)|(K1 & K2 & K3)]; congruence.
    - cbn [hd]. destruct K as [(K1 & K2 & K3)|(K1 & K2 & K3)]; congruence.
    - cbn [hd]. destruct K as [(K1 & K2 & K3)|(K1 & K2 & K3)]; congruence. }
  split; [exact U|]. intros A. apply (seg_subst x [c] [h; t] y); [discriminate|discriminate| | | | |].
  - exact I.
  - apply adj_cons. split; [|exact I]. unfold nobrk, brk. destruct K as [(K1 & K2 & K3)|(K1 & K2 & K3)]; rewrite K2, K3; reflexivity.
  - intros p a _. cbn [hd]. unfold brk. destruct K as [(K1 & K2 & K3)|(K1 & K2 & K3)]; rewrite K1, K2; destruct (gcb_of a); reflexivity.
  - intros b q _. cbn [last]. unfold brk. destruct K as [(K1 & K2 & K3)|(K1 & K2 & K3)]; rewrite K1, K3; destruct (gcb_of b); reflexivity.
  - apply rst_step. pose proof (eq_map [] c [h; t] [] (or_intror HM)) as Q. cbn [app] in Q. exact Q.
Qed.
Lemma ceq2_sym l r : Forall2 ceq l r -> Forall2 ceq r l.
Proof. induction 1; constructor; [apply rst_sym|]; assumption. Qed.
Lemma ceq2_trans l m r : Forall2 ceq l m -> Forall2 ceq m r -> Forall2 ceq l r.
Proof.
  intros H. revert r. induction H as [|a b l m E H IH]; intros r Q; inversion Q; subst; constructor; [eapply rst_trans; eassumption|apply IH; assumption].
Qed.
Lemma equivalent_same cs cs' : canonically_equivalent cs cs' -> same_graphemes cs cs'.
Proof.
  induction 1 as [cs cs' S|cs|cs cs' _ (U & F)|cs1 cs2 cs3 _ (U1 & F1) _ (U2 & F2)].
  - destruct S as [x c m y [M|M]|l l' X]; [apply (listed_same x c m y M)|apply (hangul_same x c m y M)|apply exchange_same; exact X].
  - split; [reflexivity|]. intros _. apply ceq_all.
  - split; [symmetry; exact U|]. intros A. apply ceq2_sym. apply F. apply U. exact A.
  - split; [rewrite U1; exact U2|]. intros A. eapply ceq2_trans; [apply F1; exact A|]. apply F2. apply U1. exact A.
Qed.
